(* From heaps to the worlds of MemoFrame.v and MemoStep.v. *)
From Verif Require Import Py PyProofs GeomModel GraphModel GraphSpec GraphBase GraphTake GraphOpt GraphMain GraphSound GraphSize GraphTotal
  FinalModel FinalSpec FinalProofs MemoModel MemoFrame MemoStep MemoGood MemoExact MemoKeep MemoSpec.
From Coq Require Import Lia.

Lemma writes_nothing_class t : writes_nothing t <-> exists b, klass b t.
Proof.
  split.
  - intros [H|[H|H]]; [exists NoOverviews|exists NoDequants|exists NoWarps]; exact H.
  - intros [[] H]; unfold writes_nothing; auto.
Qed.

(** ** Identities *)

Definition ghost (xs : list obj) : nat -> option obj :=
  fun i => find (fun y => Nat.eqb (oid y) i) (flat_map below xs).

Lemma below_self x : In x (below x).
Proof. destruct x; now left. Qed.

Lemma below_trans x : forall y z, In y (below x) -> In z (below y) -> In z (below x).
Proof.
  induction x as [i l|i ps d IH|i m s ys xs ci nm nc IH|i m s M al IH|i m s q IH|i m s k IH] using obj_ind';
    intros y z [<-|Hy] Hz; try exact Hz; try contradiction; right; try (eapply IH; eassumption).
  apply in_flat_map in Hy as (p & Hp & Hy). rewrite Forall_forall in IH. apply in_flat_map.
  exists p. split; [exact Hp|]. eapply IH; eassumption.
Qed.

Lemma heap_held s xs : heap s xs -> forall z, In z (flat_map below xs) -> held (GW (ghost xs) s) z.
Proof.
  intros [Hi Hu Hq Hk].
  assert (Hg : forall z, In z (flat_map below xs) -> ghost xs (oid z) = Some z).
  { intros z Hz. unfold ghost. destruct (find _ _) as [y|] eqn:E.
    - apply find_some in E as [Hy E]. apply Nat.eqb_eq in E. f_equal. now apply Hq.
    - exfalso. apply (find_none _ _ E) in Hz. now rewrite Nat.eqb_refl in Hz. }
  assert (Hc : forall y z, In y (flat_map below xs) -> In z (below y) -> In z (flat_map below xs)).
  { intros y z Hy Hz. apply in_flat_map in Hy as (r & Hr & Hy). apply in_flat_map. exists r.
    split; [exact Hr|]. eapply below_trans; eassumption. }
  intros z. induction z as [i l|i ps d IH|i m s0 ys xs0 ci nm nc IH|i m s0 M al IH|i m s0 q IH|i m s0 k IH] using obj_ind';
    intros Hz; pose proof (Hu _ Hz) as [U1 U2]; pose proof (Hg _ Hz) as G;
    try (cbn [held oid]; split; [exact U1|]; split; [exact G|]; split; [apply (U2 m eq_refl)|]; apply IH;
         eapply Hc; [exact Hz|]; right; apply below_self).
  - cbn [held oid]. auto.
  - apply held_concat. split; [exact U1|]. split; [exact G|]. rewrite Forall_forall in IH |- *.
    intros p Hp. apply IH; [exact Hp|]. eapply Hc; [exact Hz|]. right. apply in_flat_map. exists p.
    split; [exact Hp|]. apply below_self.
Qed.

Lemma held_below w x : held w x -> forall z, In z (below x) -> held w z.
Proof.
  induction x as [i l|i ps d IH|i m s ys xs ci nm nc IH|i m s M al IH|i m s q IH|i m s k IH] using obj_ind';
    intros H z [<-|Hz]; try exact H; try contradiction;
    try (apply IH; [apply H|exact Hz]).
  apply held_concat in H as (_ & _ & F). apply in_flat_map in Hz as (p & Hp & Hz).
  rewrite Forall_forall in IH, F. eapply IH; eauto.
Qed.

Lemma held_dict w x m : held w x -> dict_of x = Some m -> has w m.
Proof. destruct x; cbn; try discriminate; intros H E; injection E as <-; apply H. Qed.

(* a heap from a world *)
Lemma world_heap (w : gworld) (ty : nat -> bool) s xs : gs w = s -> memo s = [] ->
  Forall (held w) xs -> Forall (fits (World ty s)) xs -> heap s xs.
Proof.
  intros <- Hm Hh Hf.
  assert (Hb : forall z, In z (flat_map below xs) -> held w z).
  { intros z Hz. apply in_flat_map in Hz as (x & Hx & Hz). rewrite Forall_forall in Hh. eapply held_below; eauto. }
  assert (Ht : forall z m, In z (flat_map below xs) -> dict_of z = Some m -> ty m = dequantizes z).
  { intros z m Hz. apply in_flat_map in Hz as (x & Hx & Hz). rewrite Forall_forall in Hf. specialize (Hf x Hx).
    clear Hx Hh Hb. revert Hf Hz.
    induction x as [i l|i ps d IH|i m1 s ys xs0 ci nm nc IH|i m1 s M al IH|i m1 s q IH|i m1 s k IH] using obj_ind';
      intros Hf [<-|Hz] Hd; cbn [dict_of] in Hd; try discriminate; try contradiction;
      try (injection Hd as <-; apply Hf); try (apply IH; [apply Hf|exact Hz|exact Hd]).
    apply in_flat_map in Hz as (p & Hp & Hz). apply fits_concat in Hf as [_ Hf]. rewrite Forall_forall in IH, Hf.
    eapply IH; eauto. }
  split.
  - exact Hm.
  - intros z Hz. apply Hb in Hz. split; [apply held_gh' in Hz; apply Hz|]. intros m. now apply held_dict.
  - intros z z' Hz Hz'. apply held_same with (w := w); auto.
  - intros z z' m Hz Hz' E E'. rewrite <- (Ht z m), <- (Ht z' m); auto.
Qed.

Definition ty_of (xs : list obj) : nat -> bool :=
  fun m => existsb (fun z => match dict_of z with Some m' => Nat.eqb m' m && dequantizes z | None => false end) (flat_map below xs).

Lemma heap_fits s xs : heap s xs -> forall z, In z (flat_map below xs) -> fits (World (ty_of xs) s) z.
Proof.
  intros [Hi Hu Hq Hk].
  assert (Ht : forall z m, In z (flat_map below xs) -> dict_of z = Some m -> ty_of xs m = dequantizes z).
  { intros z m Hz E. unfold ty_of. destruct (existsb _ _) eqn:Ex.
    - apply existsb_exists in Ex as (y & Hy & E'). destruct (dict_of y) as [m'|] eqn:Ey; [|discriminate].
      apply andb_prop in E' as [E1 E2]. apply Nat.eqb_eq in E1. subst m'. rewrite (Hk z y m); auto.
    - destruct (dequantizes z) eqn:Ed; [|reflexivity]. exfalso.
      assert (G : existsb (fun z => match dict_of z with Some m' => Nat.eqb m' m && dequantizes z | None => false end) (flat_map below xs) = true).
      { apply existsb_exists. exists z. rewrite E, Ed, Nat.eqb_refl. auto. }
      rewrite Ex in G. discriminate. }
  assert (Hc : forall y z, In y (flat_map below xs) -> In z (below y) -> In z (flat_map below xs)).
  { intros y z Hy Hz. apply in_flat_map in Hy as (r & Hr & Hy). apply in_flat_map. exists r.
    split; [exact Hr|]. eapply below_trans; eassumption. }
  intros z. induction z as [i l|i ps d IH|i m s0 ys xs0 ci nm nc IH|i m s0 M al IH|i m s0 q IH|i m s0 k IH] using obj_ind';
    intros Hz; pose proof (Hu _ Hz) as [U1 U2];
    try (cbn [fits oid]; split; [exact U1|]; split; [apply (U2 m eq_refl)|]; split; [apply (Ht _ m Hz eq_refl)|];
         apply IH; eapply Hc; [exact Hz|]; right; apply below_self).
  - cbn [fits oid]. auto.
  - apply fits_concat. split; [exact U1|]. rewrite Forall_forall in IH |- *.
    intros p Hp. apply IH; [exact Hp|]. eapply Hc; [exact Hz|]. right. apply in_flat_map. exists p.
    split; [exact Hp|]. apply below_self.
Qed.

Lemma root_below x xs : In x xs -> In x (flat_map below xs).
Proof. intros H. apply in_flat_map. exists x. split; [exact H|apply below_self]. Qed.

(** ** One call *)

(* the general statement: dicts and the relation between argument and result *)
Lemma call_step (P : node -> node -> Prop) o :
  (forall t n, round o P t n -> P t n) ->
  forall s xs x shared fuel y s', heap s xs -> In x xs -> writes_nothing (view (sizes s) x) ->
  call_optimize shared o fuel x s = Ok (y, s') ->
  heap s' (y :: xs) /\
  (forall z, In z (flat_map below xs) -> view (sizes s') z = view (sizes s) z) /\
  writes_nothing (view (sizes s') y) /\
  P (view (sizes s) x) (view (sizes s') y).
Proof.
  intros HP s xs x shared fuel y s' Hh Hx Hc H. apply writes_nothing_class in Hc as (b & Hc).
  unfold call_optimize, fresh_context in H. pose proof (idle _ _ Hh) as Em.
  replace (Store (next s) (sizes s) []) with s in H by (destruct s; cbn in Em; now subst).
  destruct (h_optimize shared o fuel x s) as [[y' s1]|] eqn:E; [|discriminate]. injection H as <- <-.
  pose proof (heap_held _ _ Hh) as Hd.
  assert (Hfit := heap_fits _ _ Hh).
  set (w := GW (ghost xs) s) in *.
  assert (I : ginv b P w). { unfold ginv. cbn. rewrite Em. constructor. }
  destruct (g_optimize b o P HP shared fuel x w I (Hd x (root_below _ _ Hx)) Hc y' s1 E) as (w' & E' & L & _ & Hx' & Hy & Ky & Py).
  assert (I2 : inv (World (ty_of xs) s)). { unfold inv. cbn. rewrite Em. constructor. }
  destruct (run_optimize shared o fuel x (World (ty_of xs) s) I2 (Hfit x (root_below _ _ Hx)) y' s1 E) as (v & Ev & Lv & _ & Fy & _).
  assert (Hv : forall z, In z (flat_map below xs) -> view (sizes s1) z = view (sizes s) z).
  { intros z Hz. rewrite <- E'. exact (vw_le _ _ _ L (Hd z Hz)). }
  split; [|split; [|split]]; cbn [sizes].
  - apply (world_heap (GW (gh w') (Store (next s1) (sizes s1) (memo s))) (ty v)); [reflexivity|exact Em| |].
    + assert (L2 : gle w' (GW (gh w') (Store (next s1) (sizes s1) (memo s)))).
      { unfold dz. rewrite <- E'. split; [cbn; apply Nat.le_refl|]. intros i _. auto. }
      constructor; [eapply held_le; eassumption|]. apply Forall_forall. intros r Hr.
      eapply held_le; [exact L2|]. eapply held_le; [exact L|]. apply Hd. now apply root_below.
    + assert (L2 : le v (World (ty v) (Store (next s1) (sizes s1) (memo s)))).
      { rewrite <- Ev. split; [cbn; apply Nat.le_refl|]. intros m _. auto. }
      constructor; [eapply fits_le; eassumption|]. apply Forall_forall. intros r Hr.
      eapply fits_le; [exact L2|]. eapply fits_le; [exact Lv|]. apply Hfit. now apply root_below.
  - exact Hv.
  - apply writes_nothing_class. exists b. rewrite <- E'. exact Ky.
  - unfold vw in Py. rewrite E' in Py. rewrite (Hv x (root_below _ _ Hx)) in Py. exact Py.
Qed.

Lemma call_frame o s xs x shared fuel y s' : heap s xs -> In x xs ->
  call_optimize shared o fuel x s = Ok (y, s') ->
  forall z, In z (flat_map below xs) -> dequantizes z = false -> forall m, dict_of z = Some m -> sizes s' m = sizes s m.
Proof.
  intros Hh Hx H z Hz Hq m Hm.
  unfold call_optimize, fresh_context in H. pose proof (idle _ _ Hh) as Em.
  replace (Store (next s) (sizes s) []) with s in H by (destruct s; cbn in Em; now subst).
  destruct (h_optimize shared o fuel x s) as [[y' s1]|] eqn:E; [|discriminate]. injection H as <- <-.
  assert (Hfit := heap_fits _ _ Hh).
  assert (I2 : inv (World (ty_of xs) s)). { unfold inv. cbn. rewrite Em. constructor. }
  destruct (run_optimize shared o fuel x (World (ty_of xs) s) I2 (Hfit x (root_below _ _ Hx)) y' s1 E) as (v & Ev & Lv & _).
  cbn [sizes]. subst s1. pose proof (Hfit z Hz) as Fz.
  destruct z as [i l|i ps d|i m1 s0 ys xs0 ci nm nc|i m1 s0 M al|i m1 s0 q|i m1 s0 k]; try discriminate;
    cbn [dict_of] in Hm; injection Hm as ->; destruct Fz as (_ & A & B & _); now apply (proj2 Lv).
Qed.

Lemma dq_free_view D z : dq_free (view D z) -> forall y, In y (below z) -> dequantizes y = false.
Proof.
  induction z as [i l|i ps d IH|i m s ys xs ci nm nc IH|i m s M al IH|i m s q IH|i m s k IH] using obj_ind';
    intros H y [<-|Hy]; try reflexivity; try contradiction; cbn [view dq_free] in H; try contradiction; try (now apply IH).
  apply in_flat_map in Hy as (p & Hp & Hy). apply forall_parts_Forall in H.
  rewrite Forall_map, Forall_forall in H. rewrite Forall_forall in IH. eapply IH; eauto.
Qed.

Lemma view_ext D D' z : (forall y m, In y (below z) -> dict_of y = Some m -> D' m = D m) -> view D' z = view D z.
Proof.
  induction z as [i l|i ps d IH|i m s ys xs ci nm nc IH|i m s M al IH|i m s q IH|i m s k IH] using obj_ind';
    intros H; cbn [view]; try reflexivity;
    try (rewrite (H _ m (or_introl eq_refl) eq_refl); rewrite IH by (intros y m' Hy; apply H; now right); reflexivity).
  f_equal. apply map_ext_in. intros p Hp. rewrite Forall_forall in IH. apply IH; [exact Hp|].
  intros y m Hy. apply H. right. apply in_flat_map. eauto.
Qed.

Lemma frame_dq_free o s xs x shared fuel y s' : heap s xs -> In x xs ->
  call_optimize shared o fuel x s = Ok (y, s') ->
  forall z, In z (flat_map below xs) -> dq_free (view (sizes s) z) -> view (sizes s') z = view (sizes s) z.
Proof.
  intros Hh Hx H z Hz Hq. apply view_ext. intros y' m Hy Hm.
  eapply call_frame; [exact Hh|exact Hx|exact H| |eapply dq_free_view; eassumption|exact Hm].
  apply in_flat_map in Hz as (r & Hr & Hz). apply in_flat_map. exists r. split; [exact Hr|]. eapply below_trans; eassumption.
Qed.

Lemma view_meta D D' z : names (view D' z) = names (view D z) /\ num_channels (view D' z) = num_channels (view D z).
Proof.
  induction z as [i l|i ps d IH|i m s ys xs ci nm nc IH|i m s M al IH|i m s q IH|i m s k IH] using obj_ind';
    cbn [view names num_channels]; auto.
  - rewrite !map_map. assert (E : map (fun x => names (view D' x)) ps = map (fun x => names (view D x)) ps /\
      map (fun x => num_channels (view D' x)) ps = map (fun x => num_channels (view D x)) ps).
    { rewrite Forall_forall in IH. split; apply map_ext_in; intros p Hp; now apply IH. }
    destruct E as [-> ->]. auto.
  - destruct IH as [-> ->]. auto.
Qed.

(** ** Programs *)

Lemma in_incl {A} (x : A) xs y : In x xs -> In x (y :: xs).
Proof. now right. Qed.

Lemma wf_plain t : wf t -> all_bands t -> plain t.
Proof.
  induction t as [l|ps d IH|s ys xs ci d nm nc IH|s M d al IH|s q d IH|s k d IH] using node_ind';
    intros Hw Ha; cbn [plain]; auto.
  - apply (plain_concat ps d). split; [now apply mkConcat_of_concat|]. apply wf_concat in Hw as (Hw & _).
    cbn [all_bands] in Ha. apply forall_parts_Forall in Ha. rewrite Forall_forall in *. auto.
  - destruct Ha as [-> Ha]. split; [reflexivity|]. apply IH; [apply Hw|exact Ha].
  - apply IH; [apply Hw|exact Ha].
Qed.

Definition none (_ _ : node) : Prop := False.

(* a call that leaves the memo table alone *)
Lemma heap_call s xs (c : act obj) y s' :
  heap s xs ->
  (forall w, ginv NoWarps none w -> Forall (held w) xs -> runs gs gle (ginv NoWarps none) c (fun w' y => held w' y) w) ->
  (forall w, inv w -> Forall (fits w) xs -> runs st le inv c (fun w' y => fits w' y) w) ->
  c s = Ok (y, s') ->
  heap s' (y :: xs) /\ forall z, In z (flat_map below xs) -> view (sizes s') z = view (sizes s) z.
Proof.
  intros Hh Hg Hf E. pose proof (idle _ _ Hh) as Em.
  pose proof (heap_held _ _ Hh) as Hd. pose proof (heap_fits _ _ Hh) as Hfit.
  set (w := GW (ghost xs) s) in *.
  assert (I : ginv NoWarps none w). { unfold ginv. cbn. rewrite Em. constructor. }
  assert (I2 : inv (World (ty_of xs) s)). { unfold inv. cbn. rewrite Em. constructor. }
  assert (F : Forall (held w) xs). { apply Forall_forall. intros r Hr. apply Hd. now apply root_below. }
  assert (F2 : Forall (fits (World (ty_of xs) s)) xs). { apply Forall_forall. intros r Hr. apply Hfit. now apply root_below. }
  destruct (Hg w I F y s' E) as (w' & E' & L & I' & Hy).
  destruct (Hf _ I2 F2 y s' E) as (v & Ev & Lv & _ & Fy).
  assert (Em' : memo s' = []).
  { rewrite <- E'. unfold ginv in I'. destruct (memo (gs w')) as [|e r]; [reflexivity|].
    apply Forall_cons_iff in I' as [(x & _ & _ & _ & _ & _ & H) _]. destruct H. }
  split.
  - apply (world_heap w' (ty v)); [exact E'|exact Em'| |].
    + constructor; [exact Hy|]. eapply Forall_impl; [|exact F]. intros a. now apply held_le.
    + replace (World (ty v) s') with v by (destruct v; cbn in Ev; now subst).
      constructor; [exact Fy|]. eapply Forall_impl; [|exact F2]. intros a. now apply fits_le.
  - intros z Hz. rewrite <- E'. exact (vw_le _ _ _ L (Hd z Hz)).
Qed.

Lemma heap_makes s xs c y s' : heap s xs -> makes xs c -> c s = Ok (y, s') ->
  heap s' (y :: xs) /\ forall z, In z (flat_map below xs) -> view (sizes s') z = view (sizes s) z.
Proof.
  intros Hh Hm. apply heap_call; [exact Hh| |].
  - intros w I F. rewrite Forall_forall in F.
    destruct Hm as [l|x sl ci Hx|x M d al Hx|x M al Hx|x q Hx|x k Hx|ps Hp|x l Hx].
    + eapply runs_weaken; [apply g_clone; exact I|]. cbv beta. intros w' a _ (i & -> & A & B). cbn. auto.
    + eapply runs_weaken; [apply g_crop; auto|]. cbv beta. tauto.
    + eapply runs_weaken; [apply g_warp; auto|]. cbv beta. tauto.
    + eapply runs_weaken; [apply g_warp_auto; auto|]. cbv beta. tauto.
    + eapply runs_weaken; [apply g_dequant; auto|]. cbv beta. tauto.
    + eapply runs_weaken; [apply g_overview; auto|]. cbv beta. tauto.
    + eapply runs_bind; [exact gle_trans|apply g_concat; [exact I|]|].
      * rewrite Forall_forall in *. auto.
      * cbv beta. intros w' [c|] L I' H; [|apply runs_raise]. apply runs_ret; [exact gle_refl|exact I'|apply H].
    + eapply runs_weaken; [apply g_take; auto|]. cbv beta. tauto.
  - intros w I F. rewrite Forall_forall in F.
    destruct Hm as [l|x sl ci Hx|x M d al Hx|x M al Hx|x q Hx|x k Hx|ps Hp|x l Hx].
    + eapply runs_weaken; [apply run_clone; exact I|]. cbv beta. intros w' a _ (i & -> & A). cbn. auto.
    + eapply runs_weaken; [apply run_crop; auto|]. cbv beta. intros w' a _ H. apply H.
    + eapply runs_weaken; [apply run_warp; auto|]. cbv beta. intros w' a _ H. apply H.
    + eapply runs_weaken; [apply run_warp_auto; auto|]. cbv beta. intros w' a _ H. apply H.
    + eapply runs_weaken; [apply run_dequant; auto|]. cbv beta. intros w' a _ H. apply H.
    + eapply runs_weaken; [apply run_overview; auto|]. cbv beta. intros w' a _ H. apply H.
    + eapply runs_bind; [exact le_trans|apply run_concat; [exact I|]|].
      * rewrite Forall_forall in *. auto.
      * cbv beta. intros w' [c|] L I' H; [|apply runs_raise]. apply runs_ret; [exact le_refl|exact I'|apply H].
    + apply run_take; auto.
Qed.

Lemma session_heap s xs : session s xs -> heap s xs.
Proof.
  induction 1 as [D|s xs c y s' H IH Hm E|s xs shared o fuel x y s' H IH Hx Hw E].
  - split; [reflexivity| | |]; cbn; contradiction.
  - eapply heap_makes; eassumption.
  - eapply (call_step (fun _ _ => True) o); try eassumption. auto.
Qed.

(** ** Consequences *)

Lemma call_plain s xs o x shared fuel y s' : heap s xs -> In x xs ->
  made (view (sizes s) x) -> all_bands (view (sizes s) x) -> writes_nothing (view (sizes s) x) ->
  call_optimize shared o fuel x s = Ok (y, s') -> optimizes o (view (sizes s) x) (view (sizes s') y).
Proof.
  intros Hh Hx Hm Hb Hw E.
  destruct (call_step (px o) o (round_px o) _ _ _ _ _ _ _ Hh Hx Hw E) as (_ & _ & _ & H).
  apply H. apply wf_plain; [apply (made_ok _ Hm)|exact Hb].
Qed.

Lemma call_array {V} (W : FinalModel.world V) s xs o x shared fuel y s' : heap s xs -> In x xs ->
  built (view (sizes s) x) -> all_3d W (view (sizes s) x) ->
  call_optimize shared o fuel x s = Ok (y, s') ->
  exists a a', finalize W (view (sizes s) x) = Ok a /\ finalize W (view (sizes s') y) = Ok a' /\ same_array a a'.
Proof.
  intros Hh Hx Hb H3 E. destruct (built_ok _ Hb) as (Hw & Ht & He).
  destruct (call_step rk o (round_rk o) _ _ _ _ _ _ _ Hh Hx (or_intror (or_intror He)) E) as (_ & _ & _ & Hg & Hk).
  pose proof (exact_ov_free _ He) as Hr.
  destruct (Hg ROvFree Hw Hr) as ((Hw' & Hr' & Hnm & Hnc & Hv) & _).
  destruct (Hk Hw Hr Ht) as (Hd & Ht' & Hkp). pose proof (keeps_exact _ _ Hkp) as He'. destruct Hkp as [_ Hl'].
  destruct (finalize_exact W _ Hw Ht He H3) as (a & Ha).
  destruct (finalize_exact W _ Hw' Ht' (He' He) (Hl' _ H3)) as (a' & Ha').
  exists a, a'. split; [apply Ha|]. split; [apply Ha'|]. eapply finalizes_same; eassumption.
Qed.

Lemma call_image s xs o x shared fuel y s' : heap s xs -> In x xs ->
  made (view (sizes s) x) -> nans_free (view (sizes s) x) \/ ov_free (view (sizes s) x) ->
  writes_nothing (view (sizes s) x) ->
  call_optimize shared o fuel x s = Ok (y, s') ->
  names (view (sizes s') y) = names (view (sizes s) x) /\
  num_channels (view (sizes s') y) = num_channels (view (sizes s) x) /\
  (forall X Y c p, vis (view (sizes s) x) X Y c p -> vis (view (sizes s') y) X Y c p) /\
  (ov_free (view (sizes s) x) -> dsize (view (sizes s') y) = dsize (view (sizes s) x)).
Proof.
  intros Hh Hx Hm Hr Hw E. destruct (made_ok _ Hm) as (Hwf & Ht).
  destruct (call_step rk o (round_rk o) _ _ _ _ _ _ _ Hh Hx Hw E) as (_ & _ & _ & Hg & Hk).
  assert (Hgood : exists r, reg r (view (sizes s) x)).
  { destruct Hr as [Hr|Hr]; [exists RNansFree|exists ROvFree]; exact Hr. }
  destruct Hgood as (r & Hr'). destruct (Hg r Hwf Hr') as ((_ & _ & Hnm & Hnc & Hv) & _).
  split; [exact Hnm|]. split; [exact Hnc|]. split; [exact Hv|]. intros Ho. apply (Hk Hwf Ho Ht).
Qed.

Lemma same_array_sym {V} (a b : array V) : same_array a b -> same_array b a.
Proof.
  intros (A & B & C & D). split; [auto|]. split; [auto|]. split; [auto|].
  intros r c k. rewrite <- A, <- B, <- C. intros. symmetry. auto.
Qed.
Lemma same_array_trans {V} (a b c : array V) : same_array a b -> same_array b c -> same_array a c.
Proof.
  intros (A & B & C & D) (A' & B' & C' & D'). split; [congruence|]. split; [congruence|]. split; [congruence|].
  intros r j k H1 H2 H3. rewrite D by assumption. apply D'; [now rewrite <- A|now rewrite <- B|now rewrite <- C].
Qed.
