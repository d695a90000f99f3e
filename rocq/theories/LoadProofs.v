(* Proofs about images whose leafs are files. *)
From Verif Require Import Py PyProofs GeomModel GeomProofs LazyModel LazySpec LazyProofs.
From Verif Require Import GraphModel GraphSpec GraphBase GraphSize FinalModel FinalSpec FinalProofs LoadModel LoadSpec.
From Coq Require Import ZifyBool.
Local Open Scope Z_scope.

(** ** Equal arrays *)

Definition both {A B} (R : A -> B -> Prop) (x : result A) (y : result B) : Prop :=
  match x, y with Ok a, Ok b => R a b | Err _, Err _ => True | _, _ => False end.

Lemma both_bind {A B A' B'} (R : A -> B -> Prop) (S : A' -> B' -> Prop) x y f g :
  both R x y -> (forall a b, x = Ok a -> y = Ok b -> R a b -> both S (f a) (g b)) -> both S (bind x f) (bind y g).
Proof. destruct x, y; cbn; intros H K; try contradiction; auto. Qed.

Lemma both_mono {A B} (R S : A -> B -> Prop) x y : both R x y -> (forall a b, x = Ok a -> y = Ok b -> R a b -> S a b) -> both S x y.
Proof. destruct x, y; cbn; auto. Qed.

Section Arrays.
Context {X : Type}.
Implicit Types a b : array X.

Lemma same_refl a : same_array a a.
Proof. repeat split; auto. Qed.

Lemma same_sym a b : same_array a b -> same_array b a.
Proof.
  intros (H1 & H2 & H3 & H4). split; [congruence|]. split; [congruence|]. split; [congruence|].
  intros r c k Hr Hc Hk. symmetry. apply H4; rewrite ?H1, ?H2, ?H3; auto.
Qed.

Lemma same_trans a b c : same_array a b -> same_array b c -> same_array a c.
Proof.
  intros (H1 & H2 & H3 & H4) (G1 & G2 & G3 & G4). split; [congruence|]. split; [congruence|]. split; [congruence|].
  intros r x k Hr Hx Hk. rewrite H4 by auto. apply G4; rewrite <- ?H1, <- ?H2, <- ?H3; auto.
Qed.

Lemma atleast3_c a : exists n, a_c (atleast3 a) = Some n.
Proof. unfold atleast3. destruct (a_c a) eqn:E; cbn; eauto. Qed.
Lemma atleast3_h a : a_h (atleast3 a) = a_h a.
Proof. unfold atleast3. now destruct (a_c a). Qed.
Lemma atleast3_w a : a_w (atleast3 a) = a_w a.
Proof. unfold atleast3. now destruct (a_c a). Qed.
Lemma atleast3_pix a : a_pix (atleast3 a) = a_pix a.
Proof. unfold atleast3. now destruct (a_c a). Qed.
Lemma atleast3_id a n : a_c a = Some n -> atleast3 a = a.
Proof. unfold atleast3. now intros ->. Qed.
Lemma atleast3_idem a : atleast3 (atleast3 a) = atleast3 a.
Proof. destruct (atleast3_c a) as (n & H). now apply atleast3_id in H. Qed.

Lemma same_atleast3 a b : same_array a b -> same_array (atleast3 a) (atleast3 b).
Proof.
  intros (H1 & H2 & H3 & H4). unfold same_array. rewrite !atleast3_h, !atleast3_w, !atleast3_pix.
  split; [exact H1|]. split; [exact H2|]. unfold atleast3. rewrite <- H3.
  destruct (a_c a) as [n|] eqn:E; cbn [a_c]; [rewrite E|]; split; try congruence; intros r c k Hr Hc Hk; apply H4; auto. lia.
Qed.

Lemma same_index a b ys xs ci : 0 <= a_h a -> 0 <= a_w a -> same_array a b ->
  both same_array (index_array a ys xs ci) (index_array b ys xs ci).
Proof.
  intros P1 P2 (H1 & H2 & H3 & H4). unfold index_array. rewrite <- H1, <- H2, <- H3.
  destruct (axis_slice (a_h a) ys) as [y0 h] eqn:Ey. destruct (axis_slice (a_w a) xs) as [x0 w] eqn:Ex.
  assert (By : 0 <= y0 /\ y0 + h <= a_h a \/ h <= 0).
  { unfold axis_slice in Ey. injection Ey as <- <-. pose proof (slice_bound_range (a_h a) (fst ys) P1).
    pose proof (slice_bound_range (a_h a) (snd ys) P1). lia. }
  assert (Bx : 0 <= x0 /\ x0 + w <= a_w a \/ w <= 0).
  { unfold axis_slice in Ex. injection Ex as <- <-. pose proof (slice_bound_range (a_w a) (fst xs) P2).
    pose proof (slice_bound_range (a_w a) (snd xs) P2). lia. }
  destruct ci as [l|].
  - destruct (a_c a) as [n|] eqn:Ec; [|exact I].
    destruct (mapR (np_index n) l) as [l'|e] eqn:El; cbn [bind]; [|exact I].
    assert (Fl : Forall (fun i => 0 <= i < n) l').
    { clear -El. revert l' El. induction l as [|i l IH]; intros l' El.
      - injection El as <-. constructor.
      - cbn in El. apply bind_ok in El as (i' & Ei & El). apply bind_ok in El as (r & Er & El). injection El as <-.
        constructor; [|auto]. unfold np_index in Ei. destruct ((- n <=? i) && (i <? n))%bool eqn:B; [|discriminate].
        injection Ei as <-. destruct (i <? 0) eqn:B2; lia. }
    cbn. repeat split. cbn. intros r c k Hr Hc Hk. apply H4; [lia|lia|].
    rewrite Forall_forall in Fl. apply Fl. apply nth_In. lia.
  - cbn. repeat split. cbn. intros r c k Hr Hc Hk. apply H4; [lia|lia|exact Hk].
Qed.

Lemma index_array_size a ys xs ci x : 0 <= fst ys <= snd ys -> snd ys <= a_h a -> 0 <= fst xs <= snd xs -> snd xs <= a_w a ->
  index_array a ys xs ci = Ok x -> a_h x = iv_len ys /\ a_w x = iv_len xs.
Proof.
  intros B1 B2 B3 B4 H. unfold index_array in H. rewrite !axis_slice_in in H by assumption.
  destruct ci as [l|]; [|injection H as <-; auto].
  destruct (a_c a); [|discriminate]. apply bind_ok in H as (l' & _ & H). injection H as <-. auto.
Qed.

Lemma same_cat2 a a' b b' : same_array a a' -> same_array b b' -> both same_array (cat2 a b) (cat2 a' b').
Proof.
  intros (H1 & H2 & H3 & H4) (G1 & G2 & G3 & G4). unfold cat2. rewrite <- H3, <- G3, <- H1, <- G1, <- H2, <- G2.
  destruct (a_c a) as [m|] eqn:Ea; [|exact I]. destruct (a_c b) as [n|] eqn:Eb; [|exact I].
  destruct ((a_h a =? a_h b) && (a_w a =? a_w b))%bool eqn:Es; [|exact I]. cbn. repeat split. cbn.
  intros r c k Hr Hc Hk. destruct (k <? m) eqn:Ek; [apply H4; lia|apply G4; lia].
Qed.

Lemma same_cat_all l l' : Forall2 same_array l l' -> forall a a', same_array a a' ->
  both same_array (cat_all a l) (cat_all a' l').
Proof.
  induction 1 as [|b b' l l' Hb F IH]; intros a a' Ha; cbn [cat_all]; [exact Ha|].
  eapply both_bind; [apply IH; exact Hb|]. intros x x' _ _ Hx. now apply same_cat2.
Qed.

Lemma same_stack l l' : List.length l <> 1%nat -> Forall2 (fun a b => same_array (atleast3 a) (atleast3 b)) l l' ->
  both same_array (stack_bands l) (stack_bands l').
Proof.
  intros N F. destruct F as [|a a' l l' Ha F]; [exact I|]. destruct F as [|b b' l l' Hb F]; [now destruct N|].
  cbn [stack_bands]. apply same_cat_all; [|exact Ha]. cbn [map]. constructor; [exact Hb|].
  clear -F. induction F; cbn; constructor; auto.
Qed.

Lemma cat_all_size l : forall a x, cat_all a l = Ok x -> a_h x = a_h a /\ a_w x = a_w a.
Proof.
  destruct l as [|b l]; intros a x H; cbn [cat_all] in H; [injection H as <-; auto|].
  apply bind_ok in H as (y & _ & H). unfold cat2 in H. destruct (a_c a); [|discriminate]. destruct (a_c y); [|discriminate].
  destruct (_ && _)%bool; [|discriminate]. injection H as <-. auto.
Qed.

Lemma stack_size l a r x : l = a :: r -> stack_bands l = Ok x -> a_h x = a_h a /\ a_w x = a_w a.
Proof.
  intros -> H. destruct r; cbn [stack_bands] in H; [injection H as <-; auto|].
  apply cat_all_size in H. rewrite atleast3_h, atleast3_w in H. exact H.
Qed.

Lemma nearest_3 (W : FinalModel.world X) M d a : nearest_array W M d (atleast3 a) = nearest_array W M d a.
Proof.
  unfold atleast3 at 1. destruct (a_c a) as [n|] eqn:E; [reflexivity|].
  unfold nearest_array. cbn [a_h a_w a_c a_pix]. rewrite E.
  destruct (negb (axis_aligned M)); [reflexivity|]. destruct (_ && _)%bool; [destruct (_ || _)%bool; reflexivity|].
  destruct (nearest_warp _ _ _ _ _ _ _ _ _ _); reflexivity.
Qed.

Lemma resize_src_range n m i : 0 < n -> 0 <= i < m -> 0 <= resize_src n m i < n.
Proof.
  intros Hn Hi. unfold resize_src. split; [apply Z.div_pos; nia|]. apply Z.div_lt_upper_bound; nia.
Qed.

Lemma nearest_src_range s t n i y : nearest_src s t n i = Some y -> 0 <= y < n.
Proof.
  unfold nearest_src. cbv zeta. generalize (Qfloor ((inject_Z i - t) / s)). intros k H.
  destruct ((0 <=? k) && (k <? n))%bool eqn:E; [|discriminate]. injection H as <-. lia.
Qed.

Lemma same_nearest (W : FinalModel.world X) M d a b : 0 < a_h a -> 0 < a_w a -> same_array (atleast3 a) (atleast3 b) ->
  both same_array (nearest_array W M d a) (nearest_array W M d b).
Proof.
  intros P1 P2 S. rewrite <- (nearest_3 W M d a), <- (nearest_3 W M d b).
  rewrite <- (atleast3_h a) in P1. rewrite <- (atleast3_w a) in P2.
  destruct (atleast3_c a) as (n & Hn). revert P1 P2 S Hn. generalize (atleast3 a), (atleast3 b). clear a b.
  intros a b P1 P2 (H1 & H2 & H3 & H4) Hn. unfold nearest_array. rewrite <- H1, <- H2, <- H3.
  destruct (negb (axis_aligned M)); [exact I|]. destruct (_ && _)%bool.
  - destruct (_ || _)%bool; [exact I|]. cbn [both]. apply same_atleast3. cbn. repeat split. cbn.
    intros r c k Hr Hc Hk. apply H4; [apply resize_src_range; lia|apply resize_src_range; lia|exact Hk].
  - unfold nearest_warp. destruct (_ && _)%bool; [destruct (_ && _)%bool|]; [| exact I |].
    + cbn [bind both]. apply same_atleast3. cbn. repeat split. cbn. intros r c k Hr Hc Hk. unfold nearest_pixel.
      destruct (nearest_src (a22 M) (b2 M) (a_h a) r) as [y|] eqn:Ey; [|reflexivity].
      destruct (nearest_src (a11 M) (b1 M) (a_w a) c) as [x|] eqn:Ex; [|reflexivity].
      apply nearest_src_range in Ey. apply nearest_src_range in Ex. now apply H4.
    + cbn [bind both]. apply same_atleast3. cbn. repeat split.
Qed.

Lemma nearest_size (W : FinalModel.world X) M d a x : nearest_array W M d a = Ok x -> a_h x = snd d /\ a_w x = fst d.
Proof.
  unfold nearest_array. intros H. destruct (negb (axis_aligned M)); [discriminate|]. destruct (_ && _)%bool.
  - destruct (_ || _)%bool; [discriminate|]. injection H as <-. now rewrite atleast3_h, atleast3_w.
  - apply bind_ok in H as (p & _ & H). injection H as <-. now rewrite atleast3_h, atleast3_w.
Qed.

Lemma same_dq (W : FinalModel.world X) q a b : same_array a b -> same_array (dq_array W q a) (dq_array W q b).
Proof.
  intros (H1 & H2 & H3 & H4). destruct q as [q|]; [|repeat split; auto]. cbn. repeat split; auto.
  cbn. intros r c k Hr Hc Hk. f_equal. auto.
Qed.
End Arrays.

(** ** Reading a window *)

Section Reading.
Context {V : Type} (E : env V).

Definition content (f : gfile V) (m : option string) (o : Z) : array (LazyModel.sample V) :=
  Arr (g_h f o) (g_w f o) (Some (g_c f)) (stored E f m o).

(* a reference that can be read *)
Definition ready (s : lazy V) : Prop :=
  let f := l_file s in let o := l_overview s in
  level_ok s /\ (0 < o -> e_fast E = true -> g_ds f o = true) /\
  0 < g_h f o /\ 0 < g_w f o /\ 0 < g_c f /\ In (l_method s) methods.

Lemma span_nth a n k d : 0 <= k < n -> nth (Z.to_nat k) (span a n) d = a + k.
Proof.
  intros H. unfold span. rewrite nth_indep with (d' := a + 0) by (rewrite map_length, zseq_length; lia).
  rewrite (map_nth (fun k => a + k)). f_equal. unfold zseq.
  rewrite nth_indep with (d' := Z.of_nat 0) by (rewrite map_length, seq_length; lia).
  rewrite (map_nth Z.of_nat), seq_nth by lia. lia.
Qed.

Lemma map_nth_in {A B} (f : A -> B) l k d d' : (k < List.length l)%nat -> nth k (map f l) d = f (nth k l d').
Proof. intros H. rewrite nth_indep with (d' := f d') by now rewrite map_length. apply map_nth. Qed.

Lemma to_array_c (r : rarr V) : (r_2d r = true -> r_c r = 1) -> a_c (atleast3 (to_array r)) = Some (r_c r).
Proof. unfold atleast3, to_array. cbn [a_c]. destruct (r_2d r); cbn; [intros ->; reflexivity|reflexivity]. Qed.

Lemma getitem_window id (s : lazy V) index iy ix ic y0 ny x0 nx bs :
  ready s -> means 1 index iy ix ic ->
  let f := l_file s in let o := l_overview s in
  window_entry iy (g_h f o) -> window_entry ix (g_w f o) -> band_entry ic (g_c f) ->
  LazySpec.selects iy (g_h f o) = span y0 ny -> 0 < ny -> LazySpec.selects ix (g_w f o) = span x0 nx -> 0 < nx ->
  LazySpec.selects ic (g_c f) = bs -> bs <> [] ->
  request [iy; ix; ic] (g_h f o) (g_w f o) (g_c f) = Ok (bs, (y0, x0, ny, nx)) ->
  exists a, fetch E id s index = Ok (a, [Rd id o y0 x0 ny nx bs]) /\
    same_array (atleast3 a) (Arr ny nx (Some (Z.of_nat (List.length bs)))
       (fun r c k => stored E f (l_method s) o (r + y0) (c + x0) (nth (Z.to_nat k) bs 0))).
Proof.
  intros (Hl & Hds & Hh & Hw & HC & Hm) Hmeans f o Wy Wx Wc Sy Py Sx Px Sb Nb Hrq.
  unfold fetch. rewrite (getitem_ok (e_veq E) (e_promote E) (e_fast E) _ s index iy ix ic Hl Hds); try assumption; try lia.
  2: { fold f o. rewrite Sy. now apply span_nonempty. }
  2: { fold f o. rewrite Sx. now apply span_nonempty. }
  2: { fold f. now rewrite Sb. }
  cbn [bind]. fold f o. rewrite Sy, Sx, Sb. unfold requested. rewrite (shape_ok s Hl). cbn [bind]. fold f o.
  rewrite (expand_means _ _ _ _ Hmeans). cbn [bind]. rewrite Hrq. cbn [bind].
  assert (El : (if e_fast E then read_ds s else read_bands s) = Ok o).
  { destruct (e_fast E) eqn:Ef; [apply read_ds_ok; auto|now apply read_bands_ok]. }
  rewrite El. cbn [bind]. destruct bs as [|b0 bs0] eqn:Ebs; [congruence|]. rewrite <- Ebs in *.
  replace (match bs with [] => [] | b :: bs1 => [Rd id o y0 x0 ny nx (b :: bs1)] end) with [Rd id o y0 x0 ny nx bs] by now rewrite Ebs.
  eexists. split; [reflexivity|]. rewrite !span_length, !Z2Nat.id by lia.
  unfold same_array. rewrite to_array_c by (cbn; apply Z.eqb_eq).
  rewrite atleast3_h, atleast3_w, atleast3_pix. cbn [to_array a_h a_w a_c a_pix r_h r_w r_c r_2d r_data].
  split; [reflexivity|]. split; [reflexivity|]. split; [reflexivity|].
  intros r c k Hr Hx Hk. 
  rewrite (map_nth_in _ _ _ _ 0) by (rewrite span_length; lia). rewrite span_nth by lia.
  rewrite (map_nth_in _ _ _ _ 0) by (rewrite span_length; lia). rewrite span_nth by lia.
  rewrite (map_nth_in _ _ _ _ 0) by lia. unfold stored. do 2 f_equal; lia.
Qed.

Definition bands_of (f : gfile V) (ci : option (list Z)) : list Z :=
  match ci with Some l => l | None => span 0 (g_c f) end.

Lemma rectify_slice a b D : 0 <= a -> 0 <= b <= D -> rectify (ISlice (Some a) (Some b) None) D = Ok (PSlice a b).
Proof.
  intros Ha Hb. cbn [rectify]. rewrite Z.max_r, Z.min_r by lia. destruct (Z.ltb_spec b 0); [lia|reflexivity].
Qed.

Lemma selects_slice a b D : 0 <= a -> a <= b <= D -> LazySpec.selects (ISlice (Some a) (Some b) None) D = span a (b - a).
Proof.
  intros Ha Hb. cbn [LazySpec.selects]. rewrite slice_span by lia. cbn [lo hi]. now rewrite !slice_bound_id by lia.
Qed.

Lemma selects_full D : 0 <= D -> LazySpec.selects full D = span 0 D.
Proof. intros H. cbn [full LazySpec.selects]. rewrite slice_span by lia. cbn [lo hi]. now rewrite Z.sub_0_r. Qed.

Lemma rectify_full D : 0 <= D -> rectify full D = Ok (PSlice 0 D).
Proof. intros H. cbn [full rectify]. destruct (Z.ltb_spec D 0); [lia|reflexivity]. Qed.

Lemma band_full C : 0 <= C -> band_indices (PSlice 0 C) C = span 0 C.
Proof. intros H. unfold band_indices. rewrite !slice_bound_id by lia. now rewrite Z.sub_0_r. Qed.

Lemma fetch_full id (s : lazy V) : ready s ->
  exists a, fetch E id s [full] = Ok (a, [Rd id (l_overview s) 0 0 (g_h (l_file s) (l_overview s)) (g_w (l_file s) (l_overview s)) (span 0 (g_c (l_file s)))]) /\
    same_array (atleast3 a) (content (l_file s) (l_method s) (l_overview s)).
Proof.
  intros Hr. pose proof Hr as (Hl & Hds & Hh & Hw & HC & Hm).
  destruct (getitem_window id s [full] full full full 0 (g_h (l_file s) (l_overview s)) 0 (g_w (l_file s) (l_overview s)) (span 0 (g_c (l_file s))) Hr)
    as (a & Ha & Sa); try exact I; try assumption.
  - left. split; [intros [H|[]]; discriminate|]. exists 2%nat. reflexivity.
  - apply selects_full; lia.
  - apply selects_full; lia.
  - apply selects_full; lia.
  - apply span_nonempty; lia.
  - rewrite request3, !rectify_full by lia. cbn [bind bounds fst snd]. rewrite band_full, !Z.sub_0_r by lia. reflexivity.
  - exists a. split; [exact Ha|]. eapply same_trans; [exact Sa|]. unfold same_array, content. cbn [a_h a_w a_c a_pix].
    rewrite span_length, Z2Nat.id by lia. repeat split. intros r c k Hr' Hc Hk. rewrite span_nth by lia. f_equal; lia.
Qed.

Lemma fetch_crop id (s : lazy V) ys xs ci : ready s ->
  0 <= fst ys < snd ys -> snd ys <= g_h (l_file s) (l_overview s) ->
  0 <= fst xs < snd xs -> snd xs <= g_w (l_file s) (l_overview s) ->
  match ci with Some l => l <> [] /\ Forall (fun i => 0 <= i < g_c (l_file s)) l | None => True end ->
  exists a x, fetch E id s (crop_index ys xs ci) =
      Ok (a, [Rd id (l_overview s) (fst ys) (fst xs) (iv_len ys) (iv_len xs) (bands_of (l_file s) ci)]) /\
    index_array (content (l_file s) (l_method s) (l_overview s)) ys xs ci = Ok x /\
    same_array (atleast3 a) x.
Proof.
  intros Hr Hy Hy' Hx Hx' Hci. pose proof Hr as (Hl & Hds & Hh & Hw & HC & Hm).
  set (ic := match ci with Some l => IList l | None => full end).
  assert (Hwrap : forall l, Forall (fun i => 0 <= i < g_c (l_file s)) l -> map (fun i => if i <? 0 then i + g_c (l_file s) else i) l = l).
  { induction 1 as [|i l Hi F IH]; [reflexivity|]. cbn. rewrite IH. destruct (Z.ltb_spec i 0); [lia|reflexivity]. }
  assert (Sc : LazySpec.selects ic (g_c (l_file s)) = bands_of (l_file s) ci).
  { destruct ci as [l|]; cbn [ic bands_of]; [cbn; now apply Hwrap|apply selects_full; lia]. }
  destruct (getitem_window id s (crop_index ys xs ci) (ISlice (Some (fst ys)) (Some (snd ys)) None)
              (ISlice (Some (fst xs)) (Some (snd xs)) None) ic (fst ys) (iv_len ys) (fst xs) (iv_len xs) (bands_of (l_file s) ci) Hr)
    as (a & Ha & Sa); try assumption.
  - left. split.
    + unfold crop_index. destruct ci; intros [H|[H|H]]; try discriminate; [destruct H as [H|[]]; discriminate|contradiction].
    + unfold crop_index, ic. destruct ci; [exists 0%nat|exists 1%nat]; reflexivity.
  - cbn. lia.
  - cbn. lia.
  - unfold ic. destruct ci as [l|]; [|exact I]. cbn. destruct Hci as [_ F]. eapply Forall_impl; [|exact F]. cbn. lia.
  - unfold iv_len. apply selects_slice; lia.
  - unfold iv_len. lia.
  - unfold iv_len. apply selects_slice; lia.
  - unfold iv_len. lia.
  - unfold bands_of. destruct ci; [apply Hci|apply span_nonempty; lia].
  - rewrite request3, !rectify_slice by lia. cbn [bind bounds fst snd]. unfold iv_len.
    assert (Hb : exists p, rectify ic (g_c (l_file s)) = Ok p /\ band_indices p (g_c (l_file s)) = bands_of (l_file s) ci).
    { destruct ci as [l|]; cbn [ic bands_of]; [exists (PList l); auto|].
      exists (PSlice 0 (g_c (l_file s))). split; [apply rectify_full; lia|apply band_full; lia]. }
    destruct Hb as (p & -> & Ep). cbn [bind bounds fst snd]. now rewrite Ep.
  - exists a. unfold index_array. cbn [content a_h a_w a_c a_pix]. rewrite !axis_slice_in by lia.
    destruct ci as [l|].
    + destruct Hci as [Nl F]. rewrite mapR_np_index by exact F. cbn [bind]. eexists. split; [exact Ha|]. split; [reflexivity|]. exact Sa.
    + eexists. split; [exact Ha|]. split; [reflexivity|]. eapply same_trans; [exact Sa|]. unfold same_array. cbn [a_h a_w a_c a_pix bands_of].
      rewrite span_length, Z2Nat.id by lia. repeat split. intros r c k Hr' Hc' Hk. rewrite span_nth by lia. f_equal; lia.
Qed.
End Reading.

(** ** Reading lazily gives the same array as loading everything first *)

Lemma Forall2_len {A B} (R : A -> B -> Prop) l l' : Forall2 R l l' -> List.length l = List.length l'.
Proof. induction 1; cbn; auto. Qed.

Section Transparent.
Context {V : Type} (E : env V).
Notation WM := (in_memory E).

Definition file_ok (f : gfile V) (m : option string) : Prop :=
  0 < g_w f 0 /\ 0 < g_h f 0 /\ 0 < g_c f /\ 0 <= g_count f /\ In m methods.

Lemma file_ready f m : file_ok f m -> ready E (open f m None).
Proof. intros (H1 & H2 & H3 & H4 & H5). unfold ready, level_ok. cbn. repeat split; try assumption; try lia. Qed.

Definition rel (t : node) (f : final V) (b : array (LazyModel.sample V)) : Prop :=
  dsize t = Some (a_w b, a_h b) /\ 0 < a_w b /\ 0 < a_h b /\
  match f with
  | Dense a => same_array a b
  | Ref _ s => exists fl m, s = open fl m None /\ file_ok fl m /\ num_channels t = Some (g_c fl) /\ same_array (content E fl m 0) b
  end.

Lemma rel_force t f b : rel t f b -> exists a rs, force E f = Ok (a, rs) /\ same_array (atleast3 a) (atleast3 b).
Proof.
  intros (_ & _ & _ & H). destruct f as [id s|a].
  - destruct H as (fl & m & -> & Hf & _ & S). destruct (fetch_full E id _ (file_ready _ _ Hf)) as (a & Ha & Sa).
    exists a. eexists. split; [exact Ha|]. eapply same_trans; [exact Sa|]. cbn.
    assert (Hc : a_c b = Some (g_c fl)) by (symmetry; apply S). rewrite (atleast3_id b _ Hc). exact S.
  - exists a, []. split; [reflexivity|]. now apply same_atleast3.
Qed.

(* no masked value anywhere *)
Definition clean (b : array (LazyModel.sample V)) : Prop := forall r c k, unmask (a_pix b r c k) = a_pix b r c k.

Lemma clean_atleast3 b : clean b -> clean (atleast3 b).
Proof. intros H r c k. rewrite atleast3_pix. apply H. Qed.

Lemma clean_cat2 a b x : clean a -> clean b -> cat2 a b = Ok x -> clean x.
Proof.
  intros Ha Hb H. unfold cat2 in H. destruct (a_c a); [|discriminate]. destruct (a_c b); [|discriminate].
  destruct (_ && _)%bool; [|discriminate]. injection H as <-. intros r c k. cbn. destruct (_ <? _); auto.
Qed.

Lemma clean_cat_all l : Forall clean l -> forall a x, clean a -> cat_all a l = Ok x -> clean x.
Proof.
  induction 1 as [|b l Hb F IH]; intros a x Ha H; cbn [cat_all] in H; [now injection H as <-|].
  apply bind_ok in H as (y & Hy & H). eapply clean_cat2; [exact Ha| |exact H]. eauto.
Qed.

Lemma clean_finalize t b : no_masks E -> finalize WM t = Ok b -> clean b.
Proof.
  intros (Hd & Hp & Hn & Hf & Hq). revert b.
  induction t as [l|ps d IH|s ys xs ci d nm nc IH|s M d al IH|s q d IH|s k d IH] using node_ind'; intros b H; cbn [finalize] in H.
  - unfold finalize_leaf in H. destruct (l_nc l) as [n|]; [|discriminate]. destruct (l_dsize l) as [w h].
    destruct (l_kind l); injection H as <-; intros r c k; cbn; [|exact Hn].
    destruct (e_disk E (l_id l)) as [[f m]|] eqn:Ed; [|apply Hp]. specialize (Hd _ _ _ Ed). unfold stored, LazySpec.shown.
    destruct m as [m|]; [|reflexivity]. destruct (String.eqb_spec m "ma") as [->|N]; [congruence|].
    destruct (is_nodata _ _ _); reflexivity.
  - apply bind_ok in H as (l & Hl & H).
    assert (Fl : Forall clean l).
    { clear H. revert l Hl. induction IH as [|p ps Hp' F IH']; intros l Hl; cbn in Hl; [injection Hl as <-; constructor|].
      apply bind_ok in Hl as (a & Ha & Hl). apply bind_ok in Hl as (r & Hr & Hl). injection Hl as <-. constructor; auto. }
    destruct Fl as [|a l Ha F]; [discriminate|]. destruct l as [|a' l]; cbn [stack_bands] in H; [now injection H as <-|].
    eapply clean_cat_all; [| |exact H]; [|now apply clean_atleast3]. apply Forall_map. eapply Forall_impl; [|exact F]. apply clean_atleast3.
  - apply bind_ok in H as (a & Ha & H). specialize (IH a Ha). unfold index_array in H.
    destruct (axis_slice (a_h a) ys) as [y0 h]. destruct (axis_slice (a_w a) xs) as [x0 w].
    destruct ci as [l|].
    + destruct (a_c a); [|discriminate]. destruct (mapR _ l); [|discriminate]. cbn [bind rmap] in H. injection H as <-. apply clean_atleast3. intros r c k. cbn. apply IH.
    + cbn [rmap] in H. injection H as <-. apply clean_atleast3. intros r c k. cbn. apply IH.
  - apply bind_ok in H as (a & Ha & H). specialize (IH a Ha). destruct (al_nearest al); [|discriminate].
    unfold nearest_array in H. destruct (negb _); [discriminate|]. destruct (_ && _)%bool.
    + destruct (_ || _)%bool; [discriminate|]. injection H as <-. apply clean_atleast3. intros r c k. cbn. apply IH.
    + apply bind_ok in H as (p & Hp' & H). injection H as <-. apply clean_atleast3. intros r c k. cbn.
      unfold nearest_warp in Hp'. destruct (_ && _)%bool; [destruct (_ && _)%bool; [|discriminate]|].
      * injection Hp' as <-. unfold nearest_pixel. destruct (nearest_src _ _ _ _); [|exact Hf]. destruct (nearest_src _ _ _ _); [apply IH|exact Hf].
      * injection Hp' as <-. exact Hf.
  - destruct (finalize WM s) as [a|]; [|discriminate]. cbn [rmap] in H. injection H as <-. specialize (IH a eq_refl).
    apply clean_atleast3 in IH. destruct q as [q|]; [|exact IH]. intros r c k. cbn. apply Hq. apply IH.
  - discriminate.
Qed.

Lemma same_unmask a b : same_array a b -> clean b -> same_array (unmask_array a) b.
Proof.
  intros (H1 & H2 & H3 & H4) Hc. repeat split; auto. cbn. intros r c k Hr Hx Hk. rewrite H4 by auto. apply Hc.
Qed.

Lemma both_mapR {A B} (R : A -> B -> Prop) l l' : Forall2 (both R) l l' ->
  both (Forall2 R) (mapR (fun x => x) l) (mapR (fun x => x) l').
Proof.
  induction 1 as [|x y l l' Hx F IH]; cbn; [constructor|]. eapply both_bind; [exact Hx|]. intros a b _ _ Hab.
  eapply both_bind; [exact IH|]. intros r r' _ _ Hr. cbn. constructor; assumption.
Qed.

Lemma mapR_id_inv {A B} (f : A -> result B) l r : mapR (fun x => x) (map f l) = Ok r -> Forall2 (fun a b => f a = Ok b) l r.
Proof.
  revert r. induction l as [|a l IH]; intros r H; cbn in H; [injection H as <-; constructor|].
  apply bind_ok in H as (b & Hb & H). apply bind_ok in H as (r' & Hr & H). injection H as <-. constructor; auto.
Qed.

Lemma force_all_ok (fs : list (final V * list read)) bs :
  Forall2 (fun f b => exists a rs, force E (fst f) = Ok (a, rs) /\ same_array (atleast3 a) (atleast3 b)) fs bs ->
  exists l rs, force_all E fs = Ok (l, rs) /\ Forall2 (fun a b : array (LazyModel.sample V) => same_array (atleast3 a) (atleast3 b)) l bs.
Proof.
  intros F. unfold force_all.
  assert (H : exists l, mapR (fun '(f, rs) => '(a, rs') <- force E f;; Ok (a, (rs ++ rs')%list)) fs = Ok l /\
                Forall2 (fun a b => same_array (atleast3 (fst a)) (atleast3 b)) l bs).
  { induction F as [|[f rs] b fs bs (a & rs' & Hf & S) F IH]; [exists []; split; [reflexivity|constructor]|].
    destruct IH as (l & Hl & FS). cbn [fst] in Hf. cbn [mapR]. rewrite Hf. cbn [bind]. rewrite Hl. cbn [bind].
    eexists. split; [reflexivity|]. constructor; assumption. }
  destruct H as (l & -> & FS). cbn [bind]. eexists _, _. split; [reflexivity|]. clear -FS. induction FS; cbn; constructor; auto.
Qed.

Lemma nonempty_size t : nonempty t -> exists w h, dsize t = Some (w, h) /\ 0 < w /\ 0 < h.
Proof. destruct t; intros H; apply H. Qed.

Lemma nonempty_concat ps d : nonempty (Concat ps d) -> Forall nonempty ps.
Proof. intros [_ H]. cbn in H. now apply forall_parts_Forall. Qed.

Lemma lazy_main t : wf t -> tight t -> no_overviews t -> files_ok E t -> nonempty t -> no_masks E \/ single_parts t ->
  both (fun f b => rel t (fst f) b) (lfin E t) (finalize WM t).
Proof.
  induction t as [l|ps d IH|s ys xs ci d nm nc IH|s M d al IH|s q d IH|s k d IH] using node_ind';
    intros Hw Ht Ho Hf Hn Hm; cbn [lfin finalize].
  - destruct Hw as ((n & Enc & Hn0 & _) & _). destruct (nonempty_size _ Hn) as (w & h & Ed & Pw & Ph). cbn in Ed. injection Ed as Ed.
    cbn in Hf. unfold finalize_leaf. rewrite Enc, Ed. destruct (l_kind l) eqn:Ek.
    + cbn [in_memory w_flat w_pix]. unfold describes in Hf. destruct (e_disk E (l_id l)) as [[f m]|] eqn:Edk.
      * destruct Hf as (D1 & D2 & D3). rewrite Ed in D1. injection D1 as -> ->. cbn [both fst]. unfold rel. cbn [dsize num_channels a_w a_h].
        rewrite Ed. split; [reflexivity|]. split; [exact Pw|]. split; [exact Ph|]. exists f, m. split; [reflexivity|]. split; [exact D3|].
        split; [exact D2|]. assert (n = g_c f) by congruence. subst n. unfold same_array, content. cbn. auto.
      * cbn [bind both fst]. unfold rel. cbn [dsize a_w a_h]. rewrite Ed. repeat split; auto.
    + cbn [bind].
      cbn [both fst]. unfold rel. cbn [dsize a_w a_h]. rewrite Ed. repeat split; auto.
  - pose proof (nonempty_size _ Hn) as (w & h & Ed & Pw & Ph). cbn [dsize] in Ed. subst d.
    apply wf_concat in Hw as (Fw & _ & _). apply tight_concat in Ht as (Hne & Ft & Fd). apply nonempty_concat in Hn.
    unfold files_ok in Hf. rewrite leafs_concat in Hf. unfold no_overviews in Ho. cbn in Ho. rewrite forall_parts_Forall in Ho.
    assert (Hm' : Forall (fun p => no_masks E \/ single_parts p) ps).
    { destruct Hm as [Hm|[_ Hm]]; [apply Forall_forall; auto|]. fold single_parts in Hm. rewrite forall_parts_Forall in Hm.
      eapply Forall_impl; [|exact Hm]. auto. }
    assert (F : Forall2 (both (fun f b => exists p, In p ps /\ rel p (fst f) b)) (map (lfin E) ps) (map (finalize WM) ps)).
    { assert (G : forall p, In p ps -> both (fun f b => rel p (fst f) b) (lfin E p) (finalize WM p)).
      { rewrite Forall_forall in IH, Fw, Ft, Hn, Hf, Ho, Hm'. intros p Hp. apply IH; [exact Hp|auto|auto|now apply Ho|now apply Hf|auto|auto]. }
      clear -G. assert (H : forall qs, incl qs ps -> Forall2 (both (fun f b => exists p, In p ps /\ rel p (fst f) b)) (map (lfin E) qs) (map (finalize WM) qs)).
      { induction qs as [|q qs IHq]; intros Hi; [constructor|]. constructor; [|apply IHq; intros x Hx; apply Hi; now right].
        eapply both_mono; [apply G; apply Hi; now left|]. intros a b _ _ R. exists q. split; [apply Hi; now left|exact R]. }
      apply H. apply incl_refl. }
    assert (F1 := both_mapR _ _ _ F).
    destruct (mapR (fun x => x) (map (lfin E) ps)) as [fs|e] eqn:Efs, (mapR (fun x => x) (map (finalize WM) ps)) as [bs|e'] eqn:Ebs;
      try contradiction; [|exact I].
    cbn [bind]. cbn [both] in F1.
    assert (Lfs : List.length fs = List.length ps). { apply mapR_id_inv in Efs. clear -Efs. induction Efs; cbn; auto. }
    destruct (Nat.eq_dec (List.length ps) 1) as [L1|L1].
    + destruct ps as [|p [|]]; try discriminate. destruct F1 as [|f b fs' bs' (p' & [<-|[]] & R) F2]; [discriminate|].
      destruct F2; [|discriminate]. cbn [stack_bands both]. destruct R as (R1 & R2 & R3 & R4).
      split; [|split; [exact R2|split; [exact R3|]]].
      * inversion Fd; subst. cbn [dsize]. congruence.
      * destruct (fst f) as [id s|a]; [|exact R4]. destruct R4 as (fl & m & Hs & Hfl & Hc & S). exists fl, m. split; [exact Hs|]. split; [exact Hfl|].
        split; [|exact S]. cbn [num_channels map sum_opt]. rewrite Hc. f_equal. lia.
    + assert (Hnm : no_masks E). { destruct Hm as [Hm|[Hm _]]; [exact Hm|]. destruct ps as [|? [|? ?]]; cbn in Hm, L1; try congruence; lia. }
      assert (FF : Forall2 (fun f b => exists a rs, force E (fst f) = Ok (a, rs) /\ same_array (atleast3 a) (atleast3 b)) fs bs).
      { clear -F1. induction F1 as [|f b fs bs (p & _ & R) F IH]; constructor; [eapply rel_force; exact R|exact IH]. }
      destruct (force_all_ok fs bs FF) as (l & rs & Hl & FS).
      assert (Hg : both (fun f b => rel (Concat ps (Some (w, h))) (fst f) b)
                     ('(l, rs) <- force_all E fs;; a <- stack_bands l;; Ok (Dense (unmask_array a), rs)) (stack_bands bs));
        [|destruct fs as [|? [|? ?]]; [exact Hg|cbn in Lfs; congruence|exact Hg]].
      rewrite Hl. cbn [bind].
      assert (Ll : List.length l <> 1%nat). { apply Forall2_len in FS. apply Forall2_len in F1. congruence. }
      pose proof (same_stack l bs Ll FS) as HS. 
      assert (Hfin : finalize WM (Concat ps (Some (w, h))) = stack_bands bs). { cbn [finalize]. rewrite Ebs. reflexivity. }
      destruct (stack_bands l) as [x|] eqn:Ex, (stack_bands bs) as [y|] eqn:Ey; try contradiction; [|exact I].
      cbn [bind both fst]. cbn [both] in HS. 
      destruct F1 as [|f b fs' bs' (p & Hp & R) F1]; [destruct ps; [congruence|discriminate]|].
      destruct (stack_size _ _ _ _ eq_refl Ey) as (S1 & S2). destruct R as (R1 & R2 & R3 & _).
      rewrite Forall_forall in Fd. rewrite (Fd p Hp) in R1.
      unfold rel. cbn [dsize]. rewrite S1, S2. split; [exact R1|]. split; [exact R2|]. split; [exact R3|].
      apply same_unmask; [exact HS|]. eapply clean_finalize; eassumption.
  - destruct Hw as (Hws & B1 & B2 & -> & Hci). pose proof Ht as (Hts & Hnci & _ & w & h & Hd & Bx & Bx' & By & By').
    destruct Hn as [(w' & h' & Ed & Pw & Ph) Hns]. cbn in Ed. injection Ed as <- <-.
    specialize (IH Hws Hts Ho Hf Hns Hm).
    eapply both_bind; [exact IH|]. intros [f rs] b Ef Eb (R1 & R2 & R3 & R4). cbn [fst] in *.
    rewrite Hd in R1. injection R1 as -> ->.
    destruct f as [id s0|a].
    + destruct R4 as (fl & m & -> & Hfl & Hc & S). pose proof (file_ready _ _ Hfl) as Hr.
      assert (Eh : g_h fl 0 = a_h b) by apply S. assert (Ew : g_w fl 0 = a_w b) by apply S. 
      unfold iv_len in Pw, Ph. cbn [fst snd] in Pw, Ph.
      destruct (fetch_crop E id (open fl m None) ys xs ci Hr) as (a & x & Ha & Hx & Sa); cbn [l_file l_overview open]; try lia.
      { destruct ci as [l|]; [|exact I]. split; [congruence|]. destruct Hci as (_ & Hl & _). apply Hl. exact Hc. }
      rewrite Ha. cbn [bind]. cbn [l_file l_method l_overview open] in Hx.
      pose proof (same_index (content E fl m 0) b ys xs ci) as SI. rewrite Hx in SI.
      destruct Hfl as (? & ? & ? & ?). specialize (SI ltac:(cbn; lia) ltac:(cbn; lia) S).
      destruct (index_array b ys xs ci) as [x'|] eqn:Ex'; [|contradiction]. cbn [both] in SI. cbn [rmap both fst].
      destruct (index_array_size b ys xs ci x') as (Z1 & Z2); try lia; [exact Ex'|].
      unfold rel. cbn [dsize]. rewrite atleast3_h, atleast3_w, Z1, Z2. split; [reflexivity|]. unfold iv_len. split; [lia|]. split; [lia|].
      assert (C3 : exists n, a_c x = Some n).
      { clear -Sa. destruct (atleast3_c a) as (n & Hn). exists n. rewrite <- Hn. symmetry. apply Sa. }
      destruct C3 as (n & Hn3). rewrite <- (atleast3_idem a). apply same_atleast3. eapply same_trans; [exact Sa|exact SI].
    + assert (Ph0 : 0 <= a_h a /\ 0 <= a_w a). { destruct R4 as (-> & -> & _). lia. }
      pose proof (same_index a b ys xs ci ltac:(lia) ltac:(lia) R4) as SI.
      destruct (index_array a ys xs ci) as [x|] eqn:Ex, (index_array b ys xs ci) as [x'|] eqn:Ex'; try contradiction; [|exact I].
      cbn [bind rmap both fst]. cbn [both] in SI.
      destruct (index_array_size b ys xs ci x') as (Z1 & Z2); try lia; [exact Ex'|].
      unfold rel. cbn [dsize]. rewrite atleast3_h, atleast3_w, Z1, Z2. split; [reflexivity|]. unfold iv_len in *. cbn [fst snd] in *. split; [lia|]. split; [lia|].
      now apply same_atleast3.
  - destruct Hw as (Hws & _). destruct Ht as (Hts & _). destruct Ho as (_ & Ho). destruct Hn as [(w & h & Ed & Pw & Ph) Hns].
    cbn in Ed. injection Ed as ->. specialize (IH Hws Hts Ho Hf Hns Hm).
    eapply both_bind; [exact IH|]. intros [f rs] b Ef Eb R. cbn [fst] in *.
    destruct (rel_force _ _ _ R) as (a & rs' & Ha & Sa). rewrite Ha. cbn [bind]. destruct (al_nearest al); [|exact I].
    destruct R as (R1 & R2 & R3 & _).
    assert (Ph0 : a_h a = a_h b /\ a_w a = a_w b). { destruct Sa as (G1 & G2 & _). rewrite !atleast3_h in G1. rewrite !atleast3_w in G2. auto. }
    pose proof (same_nearest (e_world E) M (w, h) a b ltac:(lia) ltac:(lia) Sa) as SN.
    assert (EW : nearest_array WM M (w, h) b = nearest_array (e_world E) M (w, h) b) by reflexivity. rewrite EW.
    destruct (nearest_array (e_world E) M (w, h) a) as [x|], (nearest_array (e_world E) M (w, h) b) as [y|] eqn:Ey; try contradiction; [|exact I].
    cbn [bind both fst]. destruct (nearest_size _ _ _ _ _ Ey) as (Z1 & Z2). unfold rel. cbn [dsize]. rewrite Z1, Z2. cbn [fst snd].
    split; [reflexivity|]. split; [exact Pw|]. split; [exact Ph|exact SN].
  - destruct Ht as (Hts & Ed). destruct Hn as [_ Hns]. specialize (IH Hw Hts Ho Hf Hns Hm).
    destruct (lfin E s) as [[f rs]|], (finalize WM s) as [b|]; try contradiction; [|exact I]. cbn [bind rmap both fst] in *.
    destruct (rel_force _ _ _ IH) as (a & rs' & Ha & Sa). rewrite Ha. cbn [bind both fst].
    destruct IH as (R1 & R2 & R3 & _). unfold rel.
    assert (Z : a_h (dq_array WM q (atleast3 b)) = a_h b /\ a_w (dq_array WM q (atleast3 b)) = a_w b).
    { destruct q; cbn; now rewrite atleast3_h, atleast3_w. }
    destruct Z as (-> & ->). cbn [dsize]. rewrite Ed, R1. split; [reflexivity|]. split; [exact R2|]. split; [exact R3|].
    apply (same_dq (e_world E) q) in Sa. exact Sa.
  - contradiction.
Qed.

Lemma lazy_same t : wf t -> tight t -> no_overviews t -> files_ok E t -> nonempty t -> no_masks E \/ single_parts t ->
  both (fun a b => same_array (atleast3 (fst a)) (atleast3 b)) (lfinalize E t) (finalize WM t).
Proof.
  intros Hw Ht Ho Hf Hn Hm. pose proof (lazy_main t Hw Ht Ho Hf Hn Hm) as H. unfold lfinalize.
  destruct (lfin E t) as [[f rs]|], (finalize WM t) as [b|]; try contradiction; [|exact I]. cbn [bind].
  destruct (rel_force _ _ _ H) as (a & rs' & Ha & Sa). cbn [fst] in Ha. rewrite Ha. cbn [bind both fst]. exact Sa.
Qed.
End Transparent.
