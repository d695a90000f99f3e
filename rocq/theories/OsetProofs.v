(* Edits of ordered sets under every kind of index. *)
From Verif Require Import PyProofs ChanModel ChanSpec ChanProofs ChanSetProofs ChanStreamProofs OsetModel OsetSpec.
From Coq Require Import ZifyBool Permutation.
Local Open Scope Z_scope.

(** ** Reading the items at the positions asked for *)

Lemma stands_get (l : list string) i p : stands_for (Z.of_nat (List.length l)) i p -> py_get l i = py_get l p.
Proof.
  intros [Hp H]. destruct (nth_error l (Z.to_nat p)) as [x|] eqn:E; [|apply nth_error_None in E; lia].
  assert (H1 : py_get l i = Ok x) by (apply py_get_iff; exists (Z.to_nat p); split; [exact E|lia]).
  assert (H2 : py_get l p = Ok x) by (apply py_get_iff; exists (Z.to_nat p); split; [exact E|lia]).
  congruence.
Qed.

Lemma stands_gets (l : list string) idx P : Forall2 (stands_for (Z.of_nat (List.length l))) idx P ->
  mapR (py_get l) idx = mapR (py_get l) P.
Proof. induction 1 as [|i p idx P H F IH]; [reflexivity|]. cbn. now rewrite (stands_get _ _ _ H), IH. Qed.

Lemma stands_range n idx P : Forall2 (stands_for n) idx P -> Forall (fun i => 0 <= i < n) P.
Proof. induction 1 as [|i p idx P H F IH]; constructor; auto. apply H. Qed.

(** ** Deletions without repetitions *)

Lemma del_keys_all ks : forall d m, dict_del_all ks d = Ok m -> del_keys ks d = (m, None).
Proof.
  induction ks as [|k ks IH]; cbn; intros d m H; [congruence|]. destruct (dict_del k d); [auto|discriminate].
Qed.

Lemma del_items_fold idxs : forall (l : list string), StronglySorted (fun a b => b < a) idxs ->
  Forall (fun i => 0 <= i < Z.of_nat (List.length l)) idxs -> del_items idxs l = (fold_left del_at idxs l, None).
Proof.
  induction idxs as [|i idxs IH]; intros l Hs Hf; [reflexivity|].
  inversion Hs as [|? ? Hs' Hlt]; inversion Hf as [|? ? Hi Hf']; subst. cbn [del_items fold_left].
  unfold del_py. cbv zeta. replace (i <? 0) with false by lia. replace (i <? 0) with false by lia.
  replace (Z.of_nat (List.length l) <=? i) with false by lia. cbn [orb]. apply IH; [exact Hs'|].
  rewrite Forall_forall in *. intros j Hj. specialize (Hlt j Hj). specialize (Hf' j Hj). rewrite del_at_length by lia. lia.
Qed.

Lemma batch_delitems s P ks : oset_ok s -> NoDup P -> Forall (fun i => 0 <= i < Z.of_nat (List.length (oitems s))) P ->
  mapR (py_get (oitems s)) P = Ok ks ->
  exists s', drop_batch s ks = (s', None) /\ oset_ok s' /\ oitems s' = keepz 0 (oitems s) P.
Proof.
  intros Hs HP Hr Hks. destruct (oset_delitems_spec s P Hs HP Hr) as (s' & H & Ho & Hi).
  exists s'. split; [|auto]. unfold oset_delitems in H. rewrite Hks in H. cbn [bind] in H.
  apply bind_ok in H as (idxs & Eidx & H). apply bind_ok in H as (m & Em & H). injection H as <-.
  unfold drop_batch. rewrite Eidx, (del_keys_all _ _ _ Em).
  assert (EP : idxs = P).
  { apply mapR_Forall2 in Hks. apply mapR_Forall2 in Eidx. clear -Hks Eidx Hs Hr. revert idxs Eidx.
    induction Hks as [|p k P ks Hp F IH]; intros idxs Eidx; inversion Eidx as [|? v ? vs Hv Hvs]; subst; [reflexivity|].
    inversion Hr as [|? ? R1 R2]; subst. rewrite (IH R2 vs Hvs). f_equal.
    destruct (dict_get k (omap s)) as [v'|] eqn:Ev; [|discriminate]. injection Hv as ->.
    apply Hs in Ev as [V0 V]. apply py_get_iff in Hp as (j & J & Hj).
    assert (Z.of_nat j = p). { assert (j < List.length (oitems s))%nat by (apply nth_error_Some; congruence). lia. }
    pose proof (nth_error_NoDup _ _ _ _ (proj1 Hs) J V). lia. }
  subst idxs. rewrite del_items_fold; [reflexivity|now apply sort_desc_sorted|].
  eapply Permutation_Forall; [symmetry; apply sort_desc_perm|exact Hr].
Qed.

Lemma gets_total (l : list string) P : Forall (fun i => 0 <= i < Z.of_nat (List.length l)) P ->
  exists ks, mapR (py_get l) P = Ok ks.
Proof.
  induction 1 as [|p P Hp F (ks & IH)]; [exists []; reflexivity|].
  destruct (nth_error l (Z.to_nat p)) as [x|] eqn:E; [|apply nth_error_None in E; lia].
  assert (H : py_get l p = Ok x) by (apply py_get_iff; exists (Z.to_nat p); split; [exact E|lia]).
  exists (x :: ks). cbn. now rewrite H, IH.
Qed.

Lemma keepz_all l : forall k P, (forall j, k <= j < k + Z.of_nat (List.length l) -> In j P) -> keepz k l P = [].
Proof.
  induction l as [|x l IH]; intros k P H; [reflexivity|]. cbn [keepz].
  assert (E : zmem k P = true) by (apply zmem_In, H; cbn; lia). rewrite E. apply IH. intros j Hj. apply H. cbn. lia.
Qed.

Lemma empty_ok : oset_ok (mkO [] []).
Proof.
  split; [constructor|]. split; [constructor|]. intros x i. cbn. split; [discriminate|].
  intros [_ H]. destruct (Z.to_nat i); discriminate.
Qed.

Lemma slice_step_positions (l : list string) a b st :
  py_slice_step l a b st = (ks <- slice_positions (Z.of_nat (List.length l)) a b (match st with None => 1 | Some s => s end) ;; mapR (py_get l) ks).
Proof. destruct st; [reflexivity|]. apply py_slice_positions. Qed.

Lemma slice_total n a b st : st <> 0 -> exists ks, slice_positions n a b st = Ok ks.
Proof.
  intros H. unfold slice_positions, py_range. destruct (0 <? st); replace (st =? 0) with false by lia; eauto.
Qed.

Lemma sorted_nodup (st : Z) ks : st <> 0 -> StronglySorted (fun x y => (0 < st -> x < y) /\ (st < 0 -> y < x)) ks -> NoDup ks.
Proof.
  intros H0 H. induction H as [|x l Hs IH Hf]; constructor; [|exact IH]. intros Hin. rewrite Forall_forall in Hf.
  specialize (Hf x Hin). lia.
Qed.

(* one item by its position *)
Lemma discard_batch s k : oset_ok s -> In k (oitems s) -> discard s k = drop_batch s [k].
Proof.
  intros Hs Hin. apply In_nth_error in Hin as (j & Hj).
  assert (E : dict_get k (omap s) = Some (Z.of_nat j)) by (apply Hs; split; [lia|now rewrite Nat2Z.id]).
  assert (Hl : (j < List.length (oitems s))%nat) by (apply nth_error_Some; congruence).
  unfold drop_batch, discard. cbn [mapR]. rewrite E. cbn [bind sort_desc fold_right insert_desc del_keys del_items].
  unfold del_py. cbv zeta. replace (Z.of_nat j <? 0) with false by lia. replace (Z.of_nat j <? 0) with false by lia.
  replace (Z.of_nat (List.length (oitems s)) <=? Z.of_nat j) with false by lia. cbn [orb].
  assert (Hd : exists m, dict_del k (omap s) = Some m).
  { clear -E. induction (omap s) as [|[k' v'] d IH]; cbn in *; [discriminate|]. destruct (String.eqb k k'); [eauto|].
    destruct (IH E) as (m & ->). cbn. eauto. }
  destruct Hd as (m & ->). f_equal. f_equal. apply map_ext. intros [k' v']. cbn [fst snd]. f_equal.
  unfold count_ge. cbn [filter]. destruct (Z.of_nat j <=? v'); cbn; lia.
Qed.

Lemma delete_ok s ix P : oset_ok s -> asks (Z.of_nat (List.length (oitems s))) ix P -> NoDup P ->
  exists s', oset_delitem s ix = (s', None) /\ oset_ok s' /\ oitems s' = keepz 0 (oitems s) P.
Proof.
  intros Hs HA HP. destruct HA as [a b st P Hst _ Hpk | l P HF | i p Hp].
  - assert (G : exists s', match py_slice_step (oitems s) a b st with
                           | Ok ks => drop_batch s ks | Err e => (s, Some e) end = (s', None) /\
                oset_ok s' /\ oitems s' = keepz 0 (oitems s) P).
    { rewrite slice_step_positions.
      destruct (slice_total (Z.of_nat (List.length (oitems s))) a b _ Hst) as (ps & Eps). rewrite Eps. cbn [bind].
      apply slice_positions_spec in Eps as (_ & E1 & E2); [|lia].
      assert (Hr : Forall (fun i => 0 <= i < Z.of_nat (List.length (oitems s))) ps).
      { apply Forall_forall. intros k Hk. apply E1 in Hk. apply Hk. }
      destruct (gets_total _ _ Hr) as (ks & Hks). rewrite Hks.
      destruct (batch_delitems s ps ks Hs (sorted_nodup _ _ Hst E2) Hr Hks) as (s' & A1 & A2 & A3).
      exists s'. split; [exact A1|]. split; [exact A2|]. rewrite A3. apply keepz_ext. intros k. rewrite E1, Hpk. reflexivity. }
    destruct a as [a|], b as [b|], st as [st|]; try exact G. cbn [oset_delitem].
    eexists. split; [reflexivity|]. split; [apply empty_ok|]. cbn [oitems]. symmetry. apply keepz_all. intros j Hj.
    apply Hpk. split; [lia|]. split; [|discriminate]. exists j. cbn. lia.
  - pose proof (stands_range _ _ _ HF) as Hr. destruct (gets_total _ _ Hr) as (ks & Hks).
    cbn [oset_delitem]. rewrite (stands_gets _ _ _ HF), Hks. now apply batch_delitems.
  - assert (Hr : Forall (fun i => 0 <= i < Z.of_nat (List.length (oitems s))) [p]) by (constructor; [apply Hp|constructor]).
    destruct (gets_total _ _ Hr) as (ks & Hks). cbn [oset_delitem]. rewrite (stands_get _ _ _ Hp).
    cbn [mapR] in Hks. destruct (py_get (oitems s) p) as [k|e] eqn:Ek; [|discriminate]. cbn [bind] in Hks. injection Hks as <-.
    rewrite discard_batch; [|exact Hs|]. 
    + apply batch_delitems; auto. cbn [mapR]. now rewrite Ek.
    + apply py_get_iff in Ek as (j & Hj & _). eapply nth_error_In; exact Hj.
Qed.

(** ** Refused deletions *)

Lemma py_get_range (l : list string) i : i < - Z.of_nat (List.length l) \/ Z.of_nat (List.length l) <= i -> py_get l i = Err IndexError.
Proof.
  intros H. unfold py_get. cbv zeta. destruct (i <? 0) eqn:E.
  - replace (i + Z.of_nat (List.length l) <? 0) with true by lia. reflexivity.
  - rewrite E. assert (En : nth_error l (Z.to_nat i) = None) by (apply nth_error_None; lia). now rewrite En.
Qed.

Lemma py_get_err (l : list string) i e : py_get l i = Err e -> e = IndexError.
Proof.
  unfold py_get. cbv zeta. intros H.
  match type of H with (if ?c then _ else _) = _ => destruct c end; [congruence|].
  match type of H with match ?c with _ => _ end = _ => destruct c end; congruence.
Qed.

Lemma refuse_ok s ix e : refused (Z.of_nat (List.length (oitems s))) ix e -> oset_delitem s ix = (s, Some e).
Proof.
  intros [a b | l H | i H |].
  - destruct a, b; reflexivity.
  - cbn [oset_delitem]. assert (E : mapR (py_get (oitems s)) l = Err IndexError).
    { induction l as [|i l IH]; [inversion H|]. cbn. destruct (py_get (oitems s) i) as [x|e'] eqn:E.
      - inversion H as [? ? Hi|? ? Hl]; subst; [rewrite py_get_range in E by exact Hi; discriminate|]. now rewrite (IH Hl).
      - apply py_get_err in E. subst. reflexivity. }
    now rewrite E.
  - cbn [oset_delitem]. now rewrite py_get_range.
  - reflexivity.
Qed.

(** ** Repeated positions *)

Lemma del_keys_repeated ks : forall d, NoDup (map fst d) -> ~ NoDup ks -> (forall k, In k ks -> In k (map fst d)) ->
  exists m, del_keys ks d = (m, Some KeyError) /\ exists k, In k ks /\ dict_get k m = None.
Proof.
  assert (G : forall ks d, NoDup (map fst d) -> (exists k, In k ks /\ ~ In k (map fst d)) ->
    exists m, del_keys ks d = (m, Some KeyError) /\ forall k, ~ In k (map fst d) -> dict_get k m = None).
  { intros ks'. induction ks' as [|k ks' IH]; intros d Hd (x & Hx & Hn); [contradiction|]. cbn [del_keys].
    pose proof (dict_del_spec k d Hd) as S. destruct (dict_del k d) as [d1|].
    - destruct S as (S1 & S2 & S3 & S4). destruct (IH d1 S2) as (m & E & M).
      + exists x. destruct Hx as [-> |Hx]; [contradiction|]. split; [exact Hx|]. rewrite S4. tauto.
      + exists m. split; [exact E|]. intros y Hy. apply M. rewrite S4. tauto.
    - exists d. split; [reflexivity|]. intros y Hy. now apply dict_get_None. }
  induction ks as [|k ks IH]; intros d Hd Hks Hin; [exfalso; apply Hks; constructor|]. cbn [del_keys].
  pose proof (dict_del_spec k d Hd) as S. destruct (dict_del k d) as [d1|]; [|exfalso; apply S, Hin; now left].
  destruct S as (S1 & S2 & S3 & S4).
  destruct (in_dec string_dec k ks) as [Hk|Hk].
  - destruct (G ks d1 S2) as (m & E & M); [exists k; split; [exact Hk|]; rewrite S4; tauto|].
    exists m. split; [exact E|]. exists k. split; [now left|]. apply M. rewrite S4. tauto.
  - destruct (IH d1 S2) as (m & E & x & Hx & M).
    + intros H. apply Hks. constructor; assumption.
    + intros x Hx. rewrite S4. split; [apply Hin; now right|]. intros ->. contradiction.
    + exists m. split; [exact E|]. exists x. split; [now right|exact M].
Qed.

Lemma gets_nodup (l : list string) P ks : NoDup l -> Forall (fun i => 0 <= i < Z.of_nat (List.length l)) P ->
  mapR (py_get l) P = Ok ks -> NoDup ks -> NoDup P.
Proof.
  intros Hl Hr H. apply mapR_Forall2 in H. induction H as [|p k P ks Hp F IH]; intros Hk; constructor;
    inversion Hk as [|? ? K1 K2]; inversion Hr as [|? ? R1 R2]; subst; auto.
  intros Hin. apply K1. clear -Hp F Hin. induction F as [|p' k' P ks Hp' F IH]; [contradiction|].
  destruct Hin as [-> |Hin]; [left; congruence|right; auto].
Qed.

Lemma repeated_ok s ix P : oset_ok s -> asks (Z.of_nat (List.length (oitems s))) ix P -> ~ NoDup P ->
  exists s', oset_delitem s ix = (s', Some KeyError) /\ oitems s' = oitems s /\
    exists x, In x (oitems s') /\ dict_get x (omap s') = None.
Proof.
  intros Hs HA HP. destruct HA as [a b st P _ Hnd _ | l P HF | i p Hp]; [contradiction| |exfalso; apply HP; repeat constructor; tauto].
  pose proof (stands_range _ _ _ HF) as Hr. destruct (gets_total _ _ Hr) as (ks & Hks).
  cbn [oset_delitem]. rewrite (stands_gets _ _ _ HF), Hks. unfold drop_batch.
  assert (Hin : forall k, In k ks -> In k (oitems s)).
  { apply mapR_Forall2 in Hks. intros k Hk. clear -Hks Hk. induction Hks as [|p k' P ks Hp F IH]; [contradiction|].
    destruct Hk as [-> |Hk]; [|auto]. apply py_get_iff in Hp as (j & Hj & _). eapply nth_error_In; exact Hj. }
  assert (Hget : forall k, In k ks -> exists v, dict_get k (omap s) = Some v).
  { intros k Hk. destruct (In_nth_error _ _ (Hin k Hk)) as (j & Hj). exists (Z.of_nat j). apply Hs. split; [lia|now rewrite Nat2Z.id]. }
  assert (E : exists idxs, mapR (fun k => match dict_get k (omap s) with Some v => Ok v | None => Err KeyError end) ks = Ok idxs).
  { clear -Hget. induction ks as [|k ks IH]; [exists []; reflexivity|]. destruct (Hget k (or_introl eq_refl)) as (v & Hv).
    destruct IH as (idxs & IH); [intros x Hx; apply Hget; now right|]. exists (v :: idxs). cbn. now rewrite Hv, IH. }
  destruct E as (idxs & ->).
  destruct (del_keys_repeated ks (omap s)) as (m & -> & x & Hx & Hm).
  - apply Hs.
  - intros H. apply HP. exact (gets_nodup _ _ _ (proj1 Hs) Hr Hks H).
  - intros k Hk. destruct (Hget k Hk) as (v & Hv). destruct (in_dec string_dec k (map fst (omap s))) as [H|H]; [exact H|].
    apply dict_get_None in H. congruence.
  - eexists. split; [reflexivity|]. cbn [oitems omap]. split; [reflexivity|]. exists x. auto.
Qed.

(** ** Insertions *)

Lemma insert_any s i x : oset_ok s -> ~ In x (oitems s) ->
  inserted (oitems s) i x (oitems (oset_insert s i x)) /\
  dict_get x (omap (oset_insert s i x)) = Some i /\
  (forall y, y <> x -> forall j, dict_get y (omap (oset_insert s i x)) = Some j <->
     0 <= j /\ nth_error (oitems (oset_insert s i x)) (Z.to_nat j) = Some y).
Proof.
  intros Hs Hx. set (n := Z.of_nat (List.length (oitems s))).
  set (q := if i <? 0 then Z.max 0 (i + n) else Z.min i n).
  assert (Hq : 0 <= q <= n) by (unfold q; destruct (i <? 0) eqn:E; lia).
  assert (Hq' : if q <? 0 then False else Z.min q n = q) by (replace (q <? 0) with false by lia; lia).
  assert (En : dict_get x (omap s) = None).
  { destruct (dict_get x (omap s)) as [v|] eqn:E; [|reflexivity]. apply Hs in E as [_ E]. exfalso. apply Hx. eapply nth_error_In; exact E. }
  assert (Ep : ins_pos (List.length (oitems s)) i = ins_pos (List.length (oitems s)) q).
  { unfold ins_pos, slice_bound. fold n. fold q. replace (q <? 0) with false by lia. f_equal. lia. }
  destruct (oset_insert_spec s q x Hs Hq) as (Hok & Hit). unfold oset_insert in *. rewrite En in *. cbn [oitems omap] in *.
  rewrite <- Ep in *. set (p := ins_pos (List.length (oitems s)) i) in *.
  split; [|split].
  - exists p. split; [rewrite Ep; unfold ins_pos, slice_bound; fold n; replace (q <? 0) with false by lia; lia|].
    split; [reflexivity|]. fold n. fold q. rewrite Ep. unfold ins_pos, slice_bound. fold n. replace (q <? 0) with false by lia. lia.
  - apply dict_get_set_same.
  - intros y Hy j. rewrite dict_get_set_other by exact Hy.
    destruct Hok as (_ & _ & Hm). specialize (Hm y j). cbn [oitems omap] in Hm. rewrite dict_get_set_other in Hm by exact Hy. exact Hm.
Qed.

Lemma insert_iff s i x : oset_ok s ->
  (oset_ok (oset_insert s i x) <-> In x (oitems s) \/ 0 <= i <= Z.of_nat (List.length (oitems s))).
Proof.
  intros Hs. destruct (in_dec string_dec x (oitems s)) as [Hx|Hx].
  - split; [auto|]. intros _. unfold oset_insert. destruct (In_nth_error _ _ Hx) as (j & Hj).
    assert (E : dict_get x (omap s) = Some (Z.of_nat j)) by (apply Hs; split; [lia|now rewrite Nat2Z.id]). now rewrite E.
  - split.
    + intros Hok. right. destruct (insert_any s i x Hs Hx) as ((p & P1 & P2 & P3) & Hg & _).
      apply Hok in Hg as [H0 Hg]. split; [exact H0|].
      assert (Hlen : (Z.to_nat i < List.length (oitems (oset_insert s i x)))%nat) by (apply nth_error_Some; congruence).
      rewrite P2, app_length, firstn_length in Hlen. cbn [List.length] in Hlen. rewrite skipn_length in Hlen. lia.
    + intros [H|H]; [contradiction|]. now apply oset_insert_spec.
Qed.

(** ** Histories *)

Lemma history_ok l es l' : edits l es l' -> forall s, oset_ok s -> oitems s = l ->
  oset_ok (fold_left run_edit es s) /\ oitems (fold_left run_edit es s) = l'.
Proof.
  induction 1 as [l|l i x es l' Hx H IH|l i x es l1 l' Hx Hi Hins H IH|l ix P es l' HA HP H IH|l ix e es l' HR H IH];
    intros s Hs Hl; subst l; cbn [fold_left].
  - auto.
  - apply IH; [apply insert_iff; auto|]. cbn [run_edit]. unfold oset_insert. destruct (In_nth_error _ _ Hx) as (j & Hj).
    assert (E : dict_get x (omap s) = Some (Z.of_nat j)) by (apply Hs; split; [lia|now rewrite Nat2Z.id]). now rewrite E.
  - apply IH; [apply insert_iff; auto|]. cbn [run_edit].
    destruct (insert_any s i x Hs Hx) as ((p & P1 & P2 & P3) & _). destruct Hins as (p' & Q1 & Q2 & Q3).
    rewrite P2, Q2. assert (p = p') by lia. now subst.
  - destruct (delete_ok s ix P Hs HA HP) as (s' & E & O & I). cbn [run_edit]. rewrite E. cbn [fst]. now apply IH.
  - cbn [run_edit]. rewrite (refuse_ok s ix e HR). cbn [fst]. now apply IH.
Qed.
