(* C123: the test for empty files. *)
From Verif Require Import PyProofs LazySpec LazyProofs NonzeroModel.
Local Open Scope Z_scope.

(* the file shows a sample that is not zero, at the level of the handle *)
Definition holds_data (s : lazy Z) : Prop :=
  let f := l_file s in let o := l_overview s in
  exists y x b, 0 <= y < g_h f o /\ 0 <= x < g_w f o /\ 0 <= b < g_c f /\ g_pix f o y x b <> 0.

(* Negative samples and nodata outside of masks hide the data. *)
Theorem C123_has_data_refuted :
  let f v nd := mkG (fun _ => 1) (fun _ => 2) 1 (fun _ _ x _ => v x) (fun _ _ => nd) 0 (fun _ => false) : gfile Z in
  let s1 := open (f (fun x => x - 2) None) None None in
  let s2 := open (f (fun x => x) (Some 0)) (Some "float"%string) None in
  (holds_data s1 /\ has_data Z.eqb (fun v => v) true (Err OtherError) s1 = false) /\
  (holds_data s2 /\ has_data Z.eqb (fun v => v) true (Err OtherError) s2 = false).
Proof.
  split; (split; [|vm_compute; reflexivity]).
  - exists 0, 0, 0. cbn. lia.
  - exists 0, 1, 0. cbn. lia.
Qed.
Print Assumptions C123_has_data_refuted.

Lemma sum_vals l : forall a, fold_left add_sample (map (@SVal Z) l) (TNum a) = TNum (a + fold_right Z.add 0 l).
Proof. induction l as [|v l IH]; intros a; cbn; [now rewrite Z.add_0_r|]. rewrite IH. f_equal. lia. Qed.
Lemma sum_vals' r l : List.concat (List.concat (r_data r)) = map (@SVal Z) l -> sum_of r = TNum (fold_right Z.add 0 l).
Proof.
  unfold sum_of. intros ->. destruct l as [|v l]; [reflexivity|]. cbn [map fold_left add_sample fold_right]. now rewrite sum_vals.
Qed.
Lemma sum_nonneg l : Forall (fun v => 0 <= v) l -> 0 <= fold_right Z.add 0 l /\ (0 < fold_right Z.add 0 l <-> exists v, In v l /\ v <> 0).
Proof.
  induction 1 as [|v l Hv _ (IH1 & IH2)]; cbn; [split; [lia|]; split; [lia|intros (? & [] & _)]|]. split; [lia|]. split.
  - intros H. destruct (Z.eq_dec v 0) as [-> | Ne]; [|exists v; auto]. destruct (proj1 IH2) as (u & Hu & N); [lia|]. exists u. auto.
  - intros (u & [-> | Hu] & N); [lia|]. assert (0 < fold_right Z.add 0 l) by (apply IH2; eauto). lia.
Qed.

(* a window about the centre contains the centre, and only positions of the image *)
Lemma window_axis D d : 0 < D -> 0 < d -> let l := selects (ISlice (Some (Z.max 0 (D / 2 - d))) (Some (D / 2 + d)) None) D in
  l <> [] /\ forall y, In y l -> 0 <= y < D.
Proof.
  intros HD Hd. cbn [selects]. rewrite slice_span by lia.
  assert (0 <= D / 2 < D) by (split; [apply Z.div_pos; lia|apply Z.div_lt_upper_bound; lia]).
  unfold lo, hi, slice_bound. destruct (Z.ltb_spec (Z.max 0 (D / 2 - d)) 0); [lia|]. destruct (Z.ltb_spec (D / 2 + d) 0); [lia|].
  split; [apply span_nonempty; lia|]. intros y Hy. apply span_In in Hy. lia.
Qed.

Lemma window_request veq promote fast upstream (s : lazy Z) c1 d1 c2 d2 :
  getitem veq promote fast upstream s [ISlice (Some (c1 - d1)) (Some (c1 + d1)) None; ISlice (Some (c2 - d2)) (Some (c2 + d2)) None] =
  getitem veq promote fast upstream s [ISlice (Some (Z.max 0 (c1 - d1))) (Some (c1 + d1)) None; ISlice (Some (Z.max 0 (c2 - d2))) (Some (c2 + d2)) None].
Proof.
  unfold getitem. destruct (shape s) as [((h & w) & C)|e]; [|reflexivity]. cbn [bind].
  unfold expand_index. cbn [filter is_ellipsis List.length].
  change (Z.of_nat 2 <? 3) with true. cbn [bind app]. unfold request.
  assert (R : forall a b D, rectify (ISlice (Some a) b None) D = rectify (ISlice (Some (Z.max 0 a)) b None) D).
  { intros. cbn [rectify]. now replace (Z.max 0 (Z.max 0 a)) with (Z.max 0 a) by lia. }
  assert (P : forall a b c : idx, py_get [a; b; c] 0 = Ok a /\ py_get [a; b; c] 1 = Ok b) by (intros; now split).
  change (repeat full (Z.to_nat (3 - Z.of_nat 2))) with [full].
  cbn [app]. rewrite !(proj1 (P _ _ _)), !(proj2 (P _ _ _)). cbn [bind]. rewrite (R (c1 - d1)), (R (c2 - d2)). reflexivity.
Qed.

Section Reads.
Variables (veq : Z -> Z -> bool) (promote : Z -> Z) (fast : bool) (upstream : result (rarr Z)) (s : lazy Z).
Let f := l_file s. Let o := l_overview s.
Hypothesis Hl : level_ok s.
Hypothesis Hfast : 0 < o -> fast = true -> g_ds f o = true.
Hypothesis Hm : l_method s = None.
Hypothesis (Hh : 0 < g_h f o) (Hw : 0 < g_w f o) (Hc : 0 < g_c f).
Hypothesis Hpos : forall y x b, 0 <= y < g_h f o -> 0 <= x < g_w f o -> 0 <= b < g_c f -> 0 <= g_pix f o y x b.

Lemma read_total index iy ix :
  means 1 index iy ix full -> window_entry iy (g_h f o) -> window_entry ix (g_w f o) ->
  let ys := selects iy (g_h f o) in let xs := selects ix (g_w f o) in
  ys <> [] -> xs <> [] -> (forall y, In y ys -> 0 <= y < g_h f o) -> (forall x, In x xs -> 0 <= x < g_w f o) ->
  exists r t, getitem veq promote fast upstream s index = Ok r /\ sum_of r = TNum t /\ 0 <= t /\
    (0 < t <-> exists y x b, In y ys /\ In x xs /\ 0 <= b < g_c f /\ g_pix f o y x b <> 0).
Proof.
  intros Hmeans Wy Wx ys xs Ny Nx Ry Rx. subst f o.
  assert (Bs : forall b, In b (selects full (g_c (l_file s))) <-> 0 <= b < g_c (l_file s)).
  { intros b. cbn [selects full]. rewrite slice_span by lia. rewrite span_In. unfold lo, hi. lia. }
  assert (Nb : selects full (g_c (l_file s)) <> []).
  { intros E. assert (In 0 (selects full (g_c (l_file s)))) as H by (apply Bs; lia). rewrite E in H. destruct H. }
  rewrite (getitem_ok veq promote fast upstream s index iy ix full Hl Hfast) ; try assumption; try lia; [|rewrite Hm; now left|exact I].
  eexists _. exists (fold_right Z.add 0 (flat_map (fun y => flat_map (fun x => map (fun b => g_pix (l_file s) (l_overview s) y x b)
    (selects full (g_c (l_file s)))) xs) ys)). split; [reflexivity|].
  match goal with |- _ /\ 0 <= fold_right _ _ ?l /\ _ => set (L := l) end.
  assert (InL : forall v, In v L <-> exists y x b, In y ys /\ In x xs /\ 0 <= b < g_c (l_file s) /\ v = g_pix (l_file s) (l_overview s) y x b).
  { intros v. unfold L. rewrite in_flat_map. split.
    - intros (y & Hy & H). apply in_flat_map in H. destruct H as (x & Hx & H). apply in_map_iff in H. destruct H as (b & <- & Hb).
      apply Bs in Hb. exists y, x, b. auto.
    - intros (y & x & b & Hy & Hx & Hb & ->). exists y. split; [assumption|]. apply in_flat_map. exists x. split; [assumption|].
      apply in_map_iff. exists b. split; [reflexivity|]. now apply Bs. }
  assert (FL : Forall (fun v => 0 <= v) L).
  { apply Forall_forall. intros v H. apply InL in H. destruct H as (y & x & b & Hy & Hx & Hb & ->). apply Hpos; auto. }
  destruct (sum_nonneg L FL) as (S1 & S2). split; [|split; [exact S1|]].
  - apply sum_vals'. cbn [r_data]. unfold L. rewrite Hm. cbn [shown]. clear.
    unfold ys, xs. clear ys xs. generalize (selects iy (g_h (l_file s) (l_overview s))) (selects ix (g_w (l_file s) (l_overview s))) (selects full (g_c (l_file s))). intros Y X B.
    induction Y as [|y Y IH]; [reflexivity|]. cbn [map List.concat flat_map]. rewrite concat_app, map_app. f_equal; [|exact IH].
    clear IH. induction X as [|x X IH]; [reflexivity|]. cbn [map List.concat flat_map]. rewrite map_app. f_equal; [|exact IH].
    now rewrite map_map.
  - rewrite S2. split.
    + intros (v & H & N). apply InL in H. destruct H as (y & x & b & Hy & Hx & Hb & ->). eauto 8.
    + intros (y & x & b & Hy & Hx & Hb & N). exists (g_pix (l_file s) (l_overview s) y x b). split; [apply InL; eauto 8|exact N].
Qed.

Lemma grow_ok ds : Forall (fun d => 0 < d) ds -> forall t0, 0 <= t0 -> (0 < t0 -> holds_data s) ->
  exists t, grow_window (getitem veq promote fast upstream s) (g_h f o / 2) (g_w f o / 2) ds (TNum t0) = Ok (TNum t) /\ 0 <= t /\
    (0 < t -> holds_data s).
Proof.
  induction 1 as [|d ds Hd _ IH]; intros t0 Ht0 H0; [now exists t0|]. cbn [grow_window]. rewrite window_request.
  destruct (window_axis (g_h f o) d Hh Hd) as (Ny & Ry). destruct (window_axis (g_w f o) d Hw Hd) as (Nx & Rx).
  destruct (read_total [ISlice (Some (Z.max 0 (g_h f o / 2 - d))) (Some (g_h f o / 2 + d)) None; ISlice (Some (Z.max 0 (g_w f o / 2 - d))) (Some (g_w f o / 2 + d)) None]
    (ISlice (Some (Z.max 0 (g_h f o / 2 - d))) (Some (g_h f o / 2 + d)) None) (ISlice (Some (Z.max 0 (g_w f o / 2 - d))) (Some (g_w f o / 2 + d)) None))
    as (r & t & -> & E & Ht & Pt); try assumption.
  - left. split; [cbn; intuition congruence|]. exists 1%nat. reflexivity.
  - cbn. lia.
  - cbn. lia.
  - cbn [bind]. rewrite E. cbn [positive].
    assert (P : 0 < t -> holds_data s).
    { intros H. apply Pt in H. destruct H as (y & x & b & Hy & Hx & Hb & N). exists y, x, b. auto. }
    destruct (Z.ltb_spec 0 t); [exists t; auto|]. now apply IH.
Qed.

Lemma has_data_ok : has_data veq promote fast upstream s = true <-> holds_data s.
Proof.
  unfold has_data. rewrite (shape_ok s Hl). cbn [bind]. fold f o.
  (* the first round replaces the start value *)
  assert (G : exists t, grow_window (getitem veq promote fast upstream s) (g_h f o / 2) (g_w f o / 2) [8; 512; 2048; 5000] TMasked = Ok (TNum t) /\ 0 <= t /\
    (0 < t -> holds_data s)).
  { destruct (grow_ok [8; 512; 2048; 5000]) with (t0 := 0) as (t & E & Ht); [repeat constructor; lia|lia|lia|]. exists t. split; [|exact Ht]. exact E. }
  destruct G as (t & -> & Ht & P). cbn [bind is_zero].
  destruct (Z.eqb_spec t 0) as [-> | Ne].
  - assert (W : forall D, 0 < D -> selects full D <> [] /\ forall y, In y (selects full D) <-> 0 <= y < D).
    { intros D HD. cbn [selects full]. rewrite slice_span by lia. unfold lo, hi. split; [apply span_nonempty; lia|].
      intros y. rewrite span_In. lia. }
    destruct (W _ Hh) as (Ny & Iy). destruct (W _ Hw) as (Nx & Ix).
    destruct (read_total [full] full full) as (r & t & -> & E & Ht' & Pt); try assumption; try exact I.
    + left. split; [cbn; unfold full; intuition congruence|]. exists 2%nat. reflexivity.
    + intros y. apply Iy.
    + intros x. apply Ix.
    + cbn [rmap positive]. rewrite E. cbn [positive]. rewrite Z.ltb_lt, Pt. split.
      * intros (y & x & b & Hy & Hx & Hb & N). apply Iy in Hy. apply Ix in Hx. exists y, x, b. auto.
      * intros (y & x & b & Hy & Hx & Hb & N). exists y, x, b. apply Iy in Hy. apply Ix in Hx. auto.
  - cbn [positive]. rewrite Z.ltb_lt. split; [exact P|lia].
Qed.
End Reads.

(* What is missing: negative samples, and handles that mark nodata. *)
Theorem C123_has_data_partial : forall veq promote fast upstream (s : lazy Z),
  let f := l_file s in let o := l_overview s in
  level_ok s -> (0 < o -> fast = true -> g_ds f o = true) -> l_method s = None ->
  0 < g_h f o -> 0 < g_w f o -> 0 < g_c f ->
  (forall y x b, 0 <= y < g_h f o -> 0 <= x < g_w f o -> 0 <= b < g_c f -> 0 <= g_pix f o y x b) ->
  (has_data veq promote fast upstream s = true <-> holds_data s).
Proof. intros. now apply has_data_ok. Qed.
Print Assumptions C123_has_data_partial.

(* a row of 40 whose last sample is the only one set: outside of the first window *)
Definition last_set : lazy Z := open (mkG (fun _ => 1) (fun _ => 40) 1 (fun _ _ x _ => if x =? 39 then 7 else 0) (fun _ _ => None) 0 (fun _ => false)) None None.
Example C123_hyps : level_ok last_set /\ l_method last_set = None /\
  (forall y x b, 0 <= y < 1 -> 0 <= x < 40 -> 0 <= b < 1 -> 0 <= g_pix (l_file last_set) 0 y x b) /\
  has_data Z.eqb (fun v => v) true (Err OtherError) last_set = true.
Proof.
  repeat split; try (vm_compute; congruence). intros y x b _ _ _. cbn. destruct (x =? 39); lia.
Qed.

(** The answer yes can be trusted for every file and every nodata handling: some
    sample that is not zero is not marked as missing. *)
Definition shows_data (veq : Z -> Z -> bool) (s : lazy Z) : Prop :=
  let f := l_file s in let o := l_overview s in
  exists y x b, 0 <= y < g_h f o /\ 0 <= x < g_w f o /\ 0 <= b < g_c f /\ g_pix f o y x b <> 0 /\
    (l_method s = None \/ forall n, g_nodata f o b = Some n -> veq (g_pix f o y x b) n = false).

Lemma sum_positive l : forall t, positive (fold_left add_sample l t) = true ->
  positive t = true \/ exists v, In (SVal v) l /\ v <> 0.
Proof.
  induction l as [|x l IH]; intros t H; cbn [fold_left] in H; [now left|].
  destruct (IH _ H) as [G|(v & Hv & N)]; [|right; exists v; split; [now right|exact N]].
  destruct t as [z| |], x as [v| |]; cbn in G; try discriminate G; try (now left).
  - destruct (Z.eq_dec v 0) as [-> | N]; [left; cbn; now rewrite Z.add_0_r in G|]. right. exists v. split; [now left|exact N].
  - right. exists v. split; [now left|]. intros ->. discriminate G.
Qed.

Lemma read_sound veq promote fast upstream (s : lazy Z) index iy ix : let f := l_file s in let o := l_overview s in
  level_ok s -> (0 < o -> fast = true -> g_ds f o = true) -> In (l_method s) methods -> promote 0 = 0 ->
  0 < g_h f o -> 0 < g_w f o -> 0 < g_c f ->
  means 1 index iy ix full -> window_entry iy (g_h f o) -> window_entry ix (g_w f o) ->
  let ys := selects iy (g_h f o) in let xs := selects ix (g_w f o) in
  ys <> [] -> xs <> [] -> (forall y, In y ys -> 0 <= y < g_h f o) -> (forall x, In x xs -> 0 <= x < g_w f o) ->
  exists r, getitem veq promote fast upstream s index = Ok r /\ (positive (sum_of r) = true -> shows_data veq s).
Proof.
  intros f o Hl Hfast Hm Hp Hh Hw Hc Hmeans Wy Wx ys xs Ny Nx Ry Rx.
  assert (Bs : forall b, In b (selects full (g_c f)) <-> 0 <= b < g_c f).
  { intros b. cbn [selects full]. rewrite slice_span by lia. rewrite span_In. unfold lo, hi. lia. }
  assert (Nb : selects full (g_c f) <> []).
  { intros E. assert (In 0 (selects full (g_c f))) as H by (apply Bs; lia). rewrite E in H. destruct H. }
  rewrite (getitem_ok veq promote fast upstream s index iy ix full Hl Hfast) ; try assumption; try (fold f o; lia); [|exact I].
  eexists. split; [reflexivity|]. intros H. unfold sum_of in H. cbn [r_data] in H.
  match type of H with positive (match ?l with _ => _ end) = _ => set (L := l) in H end.
  assert (G : exists v, In (SVal v) L /\ v <> 0).
  { destruct L as [|x l]; [discriminate H|]. destruct (sum_positive _ _ H) as [G|G]; [discriminate G|exact G]. }
  destruct G as (v & Hv & Nv). unfold L in Hv. apply in_concat in Hv as (l1 & H1 & Hv). apply in_concat in H1 as (l2 & H2 & H1).
  apply in_map_iff in H2 as (y & <- & Hy). apply in_map_iff in H1 as (x & <- & Hx). apply in_map_iff in Hv as (b & Hv & Hb).
  apply Bs in Hb. apply Ry in Hy. apply Rx in Hx. exists y, x, b. fold f o in Hv |- *.
  split; [exact Hy|]. split; [exact Hx|]. split; [exact Hb|]. unfold shown in Hv. destruct (l_method s) as [m|].
  - unfold is_nodata in Hv. destruct (String.eqb m "ma").
    + destruct (g_nodata f o b) as [n|].
      * destruct (veq (g_pix f o y x b) n) eqn:E; [discriminate Hv|]. injection Hv as Hv. rewrite Hv in *. split; [exact Nv|].
        right. intros n' Hn. injection Hn as <-. exact E.
      * injection Hv as Hv. rewrite Hv in *. split; [exact Nv|]. right. intros n Hn. discriminate Hn.
    + assert (Q : forall z, SVal (promote z) = SVal v -> z <> 0) by (intros z Hz ->; rewrite Hp in Hz; injection Hz as Hz; congruence).
      destruct (g_nodata f o b) as [n|].
      * destruct (veq (g_pix f o y x b) n) eqn:E; [discriminate Hv|]. split; [now apply Q|].
        right. intros n' Hn. injection Hn as <-. exact E.
      * split; [now apply Q|]. right. intros n Hn. discriminate Hn.
  - injection Hv as Hv. rewrite Hv. split; [exact Nv|]. now left.
Qed.

Theorem C123_sound : forall veq promote fast upstream (s : lazy Z),
  let f := l_file s in let o := l_overview s in
  level_ok s -> (0 < o -> fast = true -> g_ds f o = true) -> In (l_method s) methods -> promote 0 = 0 ->
  0 < g_h f o -> 0 < g_w f o -> 0 < g_c f ->
  has_data veq promote fast upstream s = true -> shows_data veq s.
Proof.
  intros veq promote fast upstream s f o Hl Hfast Hm Hp Hh Hw Hc. unfold has_data. rewrite (shape_ok s Hl). cbn [bind]. fold f o.
  assert (G : forall ds t0, Forall (fun d => 0 < d) ds -> (positive t0 = true -> shows_data veq s) ->
    exists t, grow_window (getitem veq promote fast upstream s) (g_h f o / 2) (g_w f o / 2) ds t0 = Ok t /\
      (positive t = true -> shows_data veq s)).
  { intros ds t0 Hds. revert t0. induction Hds as [|d ds Hd _ IH]; intros t0 H0; [exists t0; auto|]. cbn [grow_window]. rewrite window_request.
    destruct (window_axis (g_h f o) d Hh Hd) as (Ny & Ry). destruct (window_axis (g_w f o) d Hw Hd) as (Nx & Rx).
    destruct (read_sound veq promote fast upstream s [ISlice (Some (Z.max 0 (g_h f o / 2 - d))) (Some (g_h f o / 2 + d)) None; ISlice (Some (Z.max 0 (g_w f o / 2 - d))) (Some (g_w f o / 2 + d)) None]
      (ISlice (Some (Z.max 0 (g_h f o / 2 - d))) (Some (g_h f o / 2 + d)) None) (ISlice (Some (Z.max 0 (g_w f o / 2 - d))) (Some (g_w f o / 2 + d)) None))
      as (r & -> & Hr); try assumption.
    - left. split; [cbn; intuition congruence|]. exists 1%nat. reflexivity.
    - cbn. lia.
    - cbn. lia.
    - cbn [bind]. destruct (positive (sum_of r)) eqn:E; [exists (sum_of r); auto|]. apply IH. intros K. congruence. }
  destruct (G [8; 512; 2048; 5000] TMasked) as (t & -> & Ht); [repeat constructor; lia|discriminate|]. cbn [bind].
  destruct (is_zero t); [|exact Ht].
  assert (W : forall D, 0 < D -> selects full D <> [] /\ forall y, In y (selects full D) -> 0 <= y < D).
  { intros D HD. cbn [selects full]. rewrite slice_span by lia. unfold lo, hi. split; [apply span_nonempty; lia|].
    intros y. rewrite span_In. lia. }
  destruct (W _ Hh) as (Ny & Iy). destruct (W _ Hw) as (Nx & Ix).
  destruct (read_sound veq promote fast upstream s [full] full full) as (r & -> & Hr); try assumption; try exact I.
  left. split; [cbn; unfold full; intuition congruence|]. exists 2%nat. reflexivity.
Qed.
Print Assumptions C123_sound.

(* masked nodata: the sample 9 is nodata, the sample 3 is data *)
Example C123_sound_case : let s := open (mkG (fun _ => 1) (fun _ => 40) 1 (fun _ _ x _ => if x =? 39 then 3 else 9) (fun _ _ => Some 9) 0 (fun _ => false)) (Some "ma"%string) None in
  level_ok s /\ In (l_method s) methods /\ has_data Z.eqb (fun v => v) true (Err OtherError) s = true /\
  has_data Z.eqb (fun v => v) true (Err OtherError)
    (open (mkG (fun _ => 1) (fun _ => 40) 1 (fun _ _ x _ => 9) (fun _ _ => Some 9) 0 (fun _ => false)) (Some "ma"%string) None) = false.
Proof. repeat split; try (vm_compute; congruence). cbn. tauto. Qed.

(** Masked nodata can hide data that lie more than 5000 samples away from the middle: the
    sum of masked samples is not zero, so the whole file is not read. *)
Theorem C123_masked_refuted : exists s : lazy Z, level_ok s /\ l_method s = Some "ma"%string /\ shows_data Z.eqb s /\
  has_data Z.eqb (fun v => v) true (Err OtherError) s = false.
Proof.
  exists (open (mkG (fun _ => 1) (fun _ => 10010) 1 (fun _ _ x _ => if x =? 10009 then 3 else 9) (fun _ _ => Some 9) 0 (fun _ => false)) (Some "ma"%string) None).
  split; [vm_compute; repeat split; congruence|]. split; [reflexivity|]. split; [|vm_compute; reflexivity].
  exists 0, 10009, 0. cbn. repeat split; try lia. right. intros n [= <-]. reflexivity.
Qed.
Print Assumptions C123_masked_refuted.
