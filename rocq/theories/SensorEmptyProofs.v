(* When the concise text of a sensorchan spec with empty streams can be parsed. *)
From Verif Require Import Py PyProofs ChanModel ChanSpec ChanProofs SensorModel SensorSpec SensorProofs SensorStreamProofs SensorConciseProofs.
From Coq Require Import Permutation.
Local Open Scope string_scope.

Lemma leb_trans a b c : String.leb a b = true -> String.leb b c = true -> String.leb a c = true.
Proof.
  unfold String.leb. revert b c. induction a as [|x a IH]; intros [|y b] [|z c]; cbn [String.compare]; try (discriminate || reflexivity).
  unfold Ascii.compare. set (i := N_of_ascii x). set (j := N_of_ascii y). set (k := N_of_ascii z). intros H1 H2.
  destruct (N.compare_spec i j) as [E1 | E1 | E1], (N.compare_spec j k) as [E2 | E2 | E2], (N.compare_spec i k) as [E3 | E3 | E3];
    try discriminate; try reflexivity; try lia. now apply (IH b).
Qed.
Lemma insert_comm x y l : insert_str x (insert_str y l) = insert_str y (insert_str x l).
Proof.
  assert (A : forall a b, String.leb a b = true -> String.leb b a = true -> a = b) by (intros; now apply String.leb_antisym).
  induction l as [|z l IH]; cbn [insert_str].
  - destruct (String.leb x y) eqn:E1, (String.leb y x) eqn:E2; trivial; [now rewrite (A _ _ E1 E2)|].
    destruct (String.leb_total x y); congruence.
  - destruct (String.leb y z) eqn:Ey, (String.leb x z) eqn:Ex; cbn [insert_str]; rewrite ?Ex, ?Ey.
    + destruct (String.leb x y) eqn:E1, (String.leb y x) eqn:E2; trivial; [now rewrite (A _ _ E1 E2)|].
      destruct (String.leb_total x y); congruence.
    + destruct (String.leb x y) eqn:E1; [|trivial]. rewrite (leb_trans _ _ _ E1 Ey) in Ex. discriminate.
    + destruct (String.leb y x) eqn:E2; [|trivial]. rewrite (leb_trans _ _ _ E2 Ex) in Ey. discriminate.
    + now rewrite IH.
Qed.
Lemma sort_perm l l' : Permutation l l' -> sort_strs l = sort_strs l'.
Proof.
  unfold sort_strs. induction 1; cbn [fold_right]; [reflexivity|congruence|apply insert_comm|congruence].
Qed.

(* the sensor part is fixed by the set of sensors and whether there is one *)
Lemma sp_of_same a b : a <> [] -> b <> [] -> (forall s, In s a <-> In s b) -> (List.length a = 1%nat <-> List.length b = 1%nat) ->
  sp_of a = sp_of b.
Proof.
  intros Ha Hb Hs Hl. unfold sp_of.
  assert (E : Nat.ltb 1 (List.length a) = Nat.ltb 1 (List.length b)).
  { destruct a as [|x [|y a]], b as [|x' [|y' b]]; cbn in *; trivial; try congruence; lia. }
  rewrite E. replace (sort_strs (oset_of a)) with (sort_strs (oset_of b)); [reflexivity|]. apply sort_perm.
  apply NoDup_Permutation; try apply oset_of_NoDup. intros s. now rewrite !oset_of_In, Hs.
Qed.
Lemma sp_of_len a b : some (fun s => is_iden s = true) a -> some (fun s => is_iden s = true) b -> sp_of a = sp_of b ->
  (List.length a = 1%nat <-> List.length b = 1%nat).
Proof.
  assert (P : forall a b, some (fun s => is_iden s = true) a -> some (fun s => is_iden s = true) b -> sp_of a = sp_of b ->
              List.length a = 1%nat -> List.length b = 1%nat).
  { clear. intros a b (_ & Ha) (Hn & _) E L. destruct (one_or_more _ Hn) as [(x & ->) | Hb]; [reflexivity|].
    destruct a as [|x [|? ?]]; try discriminate. inversion Ha as [|? ? Hx _]; subst.
    unfold sp_of in E. rewrite Hb in E. cbn in E. destruct (iden_head _ Hx) as (c & u & -> & Hc). injection E as -> _.
    vm_compute in Hc. discriminate. }
  intros Ha Hb E. split; apply P; auto.
Qed.

Section Tree.
Variable t : list item.
Hypothesis Hw : wf t.
Let sts := map st_of (written t).

Lemma vals_sensors c : vals c (kvs_of t) = sensors_with sts c.
Proof.
  unfold sts, sensors_with, vals, kvs_of. pose proof (written_wf _ Hw) as W.
  induction W as [|[s g] l (Hs & Hg) _ IH]; [reflexivity|]. cbn [map filter st_of fst snd] in *.
  destruct (cg_spec _ Hg) as (-> & _). destruct (String.eqb (fspec (cg g)) c); cbn [map fst snd]; now rewrite IH.
Qed.
Lemma vals_idens c : vals c (kvs_of t) <> [] -> some (fun s => is_iden s = true) (vals c (kvs_of t)).
Proof.
  intros H. split; [trivial|]. apply Forall_forall. intros s Hs. apply vals_In in Hs. unfold kvs_of in Hs.
  apply in_map_iff in Hs as ([s' g] & E & K). injection E as _ <-. pose proof (written_wf _ Hw) as W. rewrite Forall_forall in W.
  apply (W _ K).
Qed.

Lemma clash_apart : ~ clash sts -> apart (kvs_of t).
Proof.
  intros H x Hx H0 E. destruct (string_dec x "") as [-> | Hne]; [reflexivity|exfalso]. apply H.
  split; [now rewrite <- vals_sensors|].
  destruct (vals x (kvs_of t)) as [|s l] eqn:Ev; [congruence|].
  assert (K : In s (vals x (kvs_of t))) by (rewrite Ev; now left). rewrite <- Ev in *. clear l Ev.
  apply vals_In in K. unfold kvs_of in K. apply in_map_iff in K as ([s' g] & Eg & K). cbn [fst snd] in Eg. injection Eg as Eg ->.
  pose proof (written_wf _ Hw) as W. rewrite Forall_forall in W. destruct (W _ K) as (_ & Hg). cbn [snd] in Hg.
  exists (st_of (s, g)), (cg g). split; [unfold sts; now apply in_map|]. split; [|split; [|split]].
  - cbn. intros N. apply Hne. rewrite <- Eg. now apply cg_empty.
  - apply cg_spec, Hg.
  - rewrite Eg, <- !vals_sensors. apply sp_of_inj; try (now apply vals_idens). congruence.
  - rewrite Eg, <- !vals_sensors. apply sp_of_len; try (now apply vals_idens). congruence.
Qed.

(* parsing the concise text *)
Lemma chan_no x s d : In (x, s) (kvs_of t) -> iden_rest d = false -> d <> "."%char -> d <> ":"%char -> d <> "|"%char ->
  dec_digit d = false -> contains d x = false.
Proof.
  intros K H1 H2 H3 H4 H5. unfold kvs_of in K. apply in_map_iff in K as ([s' g] & E & K). cbn [fst snd] in E. injection E as <- ->.
  pose proof (written_wf _ Hw) as W. rewrite Forall_forall in W. destruct (W _ K) as (_ & Hg). cbn [snd] in Hg.
  destruct (cg_text _ Hg) as (g' & Hg' & _ & <- & _). destruct g' as [|c g']; [reflexivity|].
  apply group_no; trivial. split; [discriminate|trivial].
Qed.
Lemma pass1_In sp x : In (sp, x) (pass1 (kvs_of t)) <-> vals x (kvs_of t) <> [] /\ sp = sp_of (vals x (kvs_of t)).
Proof.
  unfold pass1. rewrite in_map_iff. split.
  - intros ([x' l] & E & K). apply group_items_In in K as (-> & K). injection E as <- <-. auto.
  - intros (K & ->). exists (x, vals x (kvs_of t)). split; [reflexivity|]. apply group_items_In. auto.
Qed.
Lemma chans_no sp d : iden_rest d = false -> d <> "."%char -> d <> ":"%char -> d <> "|"%char -> dec_digit d = false ->
  Forall (fun x => contains d x = false) (vals sp (pass1 (kvs_of t))).
Proof.
  intros. apply Forall_forall. intros x Hx. apply vals_In, pass1_In in Hx as (Hx & _).
  destruct (vals x (kvs_of t)) as [|s l] eqn:Ev; [congruence|].
  assert (K : In s (vals x (kvs_of t))) by (rewrite Ev; now left). apply vals_In in K. now apply (chan_no x s).
Qed.
Lemma join_no d l : d <> ","%char -> Forall (fun x => contains d x = false) l -> contains d (join "," l) = false.
Proof.
  intros Hd H. rewrite contains_join by trivial. induction H as [|x l Hx _ IH]; [reflexivity|]. cbn. now rewrite Hx, IH.
Qed.
Lemma part_scan sp : vals sp (pass1 (kvs_of t)) <> [] ->
  scan false (sp ++ String ":" (cp_of (vals sp (pass1 (kvs_of t))))) = Some false.
Proof.
  intros Hn.
  assert (S1 : scan false (sp ++ ":") = Some false).
  { destruct (vals sp (pass1 (kvs_of t))) as [|x l] eqn:E; [congruence|].
    assert (K : In x (vals sp (pass1 (kvs_of t)))) by (rewrite E; now left). apply vals_In, pass1_In in K as (K & ->).
    destruct (lhs_of_spec _ (vals_idens _ K)) as (Wl & Tl & _). rewrite <- Tl.
    change (scan false (text_lhs (lhs_of (vals x (kvs_of t)))) = Some false).
    pose proof (item_scan (WithSensor (lhs_of (vals x (kvs_of t))) None) Wl) as I. rewrite item_text_eq in I. cbn [text_opt] in I.
    now rewrite app_empty_r_s in I. }
  change (sp ++ String ":" (cp_of (vals sp (pass1 (kvs_of t))))) with (sp ++ (":" ++ cp_of (vals sp (pass1 (kvs_of t))))).
  rewrite app_assoc_s, scan_app, S1. unfold cp_of.
  pose proof (chans_no sp "(") as O. pose proof (chans_no sp ")") as C. pose proof (chans_no sp ",") as M.
  revert Hn O C M. generalize (vals sp (pass1 (kvs_of t))). intros l Hn O C M.
  specialize (O eq_refl ltac:(discriminate) ltac:(discriminate) ltac:(discriminate) eq_refl).
  specialize (C eq_refl ltac:(discriminate) ltac:(discriminate) ltac:(discriminate) eq_refl).
  specialize (M eq_refl ltac:(discriminate) ltac:(discriminate) ltac:(discriminate) eq_refl).
  destruct (one_or_more _ Hn) as [(x & ->) | E].
  - cbn. inversion O; inversion C; inversion M; subst. apply scan_plain; auto.
  - rewrite E. unfold parens. cbn [scan]. cbn. rewrite scan_app.
    rewrite (scan_plain true); [reflexivity| | |now left]; apply join_no; trivial; discriminate.
Qed.

Lemma parse_opt_bad cs : Nat.ltb 1 (List.length cs) = true -> In "" cs -> Forall (fun x => contains "," x = false) cs ->
  Forall (fun x => contains ")" x = false) cs -> forall r, parse_opt_rhs (cp_of cs) <> Ok r.
Proof.
  intros L H0 M C r E. unfold cp_of in E. rewrite L in E. unfold parens in E.
  cbn [parse_opt_rhs parse_rhs rmap] in E. rewrite (split_once_app ")" (join "," cs) "") in E by (apply join_no; [discriminate|trivial]).
  assert (Hn : cs <> []) by (intros ->; discriminate).
  unfold parse_groups in E. rewrite split_join in E by trivial.
  assert (B : exists e, mapR parse_group cs = Err e).
  { clear - H0. induction cs as [|x cs IH]; [destruct H0|]. cbn [mapR]. destruct H0 as [-> | H0]; [eexists; reflexivity|].
    destruct (parse_group x); [|eexists; reflexivity]. destruct (IH H0) as (e & ->). eexists. reflexivity. }
  destruct B as (e & B). rewrite B in E. discriminate.
Qed.

Lemma parse_part_bad sp : In "" (vals sp (pass1 (kvs_of t))) -> Nat.ltb 1 (List.length (vals sp (pass1 (kvs_of t)))) = true ->
  forall i, parse_item (sp ++ String ":" (cp_of (vals sp (pass1 (kvs_of t))))) <> Ok i.
Proof.
  intros H0 L i E. pose proof (parse_opt_bad _ L H0 (chans_no sp "," eq_refl ltac:(discriminate) ltac:(discriminate) ltac:(discriminate) eq_refl)
    (chans_no sp ")" eq_refl ltac:(discriminate) ltac:(discriminate) ltac:(discriminate) eq_refl)) as B.
  assert (S : starts_digit (cp_of (vals sp (pass1 (kvs_of t)))) = false) by (unfold cp_of; rewrite L; reflexivity).
  revert B S E. generalize (cp_of (vals sp (pass1 (kvs_of t)))). intros r B S E.
  apply vals_In, pass1_In in H0 as (K & ->). destruct (vals_idens _ K) as (_ & Hi). revert E. unfold sp_of.
  destruct (one_or_more _ K) as [(x & Ex) | E1].
  - rewrite Ex in *. cbn [List.length Nat.ltb Nat.leb]. change (join "," (sort_strs (oset_of [x]))) with x.
    inversion Hi as [|? ? Hx _]; subst. destruct (iden_head _ Hx) as (c & u & Eu & Hc).
    assert (P : parse_item (x ++ String ":" r) = (o <- parse_opt_rhs r ;; Ok (WithSensor (OneSensor x) o))).
    { rewrite Eu at 1. cbn [append]. rewrite parse_item_plain by (now apply iden_start_not_paren).
      change (String c (u ++ String ":" r)) with (String c u ++ String ":" r). rewrite <- Eu.
      rewrite split_once_app by (apply iden_no; [reflexivity|trivial]). now rewrite Hx, S. }
    rewrite P. destruct (parse_opt_rhs r) as [o|] eqn:Eo; [now destruct (B o)|discriminate].
  - rewrite E1. unfold parens. cbn [append].
    change (parse_item (String "(" ((join "," (sort_strs (oset_of (vals "" (kvs_of t)))) ++ ")") ++ String ":" r)) <> Ok i).
    rewrite <- app_assoc_s. cbn [append]. cbn [parse_item]. rewrite split_once_app.
    + destruct (mapR _ _); [|discriminate]. cbn [bind]. destruct (parse_opt_rhs r) as [o|] eqn:Eo; [now destruct (B o)|discriminate].
    + apply idens_no; [|reflexivity|discriminate]. apply Forall_forall. intros s Hs. rewrite sort_In, oset_of_In in Hs.
      rewrite Forall_forall in Hi. now apply Hi.
Qed.

Lemma clash_bad : clash sts -> forall s' t', concise_sensor_chan (text t) = Ok s' -> parse s' <> Ok t'.
Proof.
  intros (H0 & st & f & Hst & Hc & Ef & Hs & Hl) s' t' E P.
  unfold sts in Hst. apply in_map_iff in Hst as ([s g] & <- & K). cbn [st_of snd codes] in Hc, Ef.
  pose proof (written_wf _ Hw) as W. rewrite Forall_forall in W. destruct (W _ K) as (_ & Hg). cbn [snd] in Hg.
  destruct (cg_spec _ Hg) as (Ec & _). cbn in Ef. rewrite Ec in Ef. injection Ef as <-. rewrite <- !vals_sensors in *.
  set (x := fspec (cg g)) in *.
  assert (Hx : x <> "") by (intros N; apply Hc; now apply cg_empty).
  assert (Kx : vals x (kvs_of t) <> []).
  { intros N. assert (In s (vals x (kvs_of t))) as Ks by (apply vals_In; unfold kvs_of; apply in_map_iff; exists (s, g); auto).
    now rewrite N in Ks. }
  assert (Esp : sp_of (vals "" (kvs_of t)) = sp_of (vals x (kvs_of t))) by now apply sp_of_same.
  set (sp := sp_of (vals "" (kvs_of t))) in *.
  assert (K0 : In "" (vals sp (pass1 (kvs_of t)))) by (apply vals_In, pass1_In; auto).
  assert (K1 : In x (vals sp (pass1 (kvs_of t)))) by (apply vals_In, pass1_In; auto).
  assert (L : Nat.ltb 1 (List.length (vals sp (pass1 (kvs_of t)))) = true).
  { clear - K0 K1 Hx. destruct (vals sp (pass1 (kvs_of t))) as [|a [|b l]]; [destruct K0| |reflexivity].
    destruct K0 as [-> | []], K1 as [<- | []]. congruence. }
  unfold concise_sensor_chan in E. rewrite parse_text_ok in E by trivial. cbn [bind] in E. rewrite tr_items_true in E by trivial. cbn [bind] in E.
  rewrite concise_parts_eq, map_map in E. cbn [sn_chan sn_sensor] in E. fold (kvs_of t) in E. injection E as <-.
  assert (Kp : In (sp ++ String ":" (cp_of (vals sp (pass1 (kvs_of t))))) (cparts (kvs_of t))).
  { unfold cparts. rewrite sort_In. apply in_map_iff. exists (sp, vals sp (pass1 (kvs_of t))). split; [reflexivity|].
    apply group_items_In. split; [reflexivity|]. intros N. now rewrite N in K0. }
  unfold parse in P. rewrite split_top_join in P.
  - apply mapR_Forall2 in P. revert P Kp. generalize (sp ++ String ":" (cp_of (vals sp (pass1 (kvs_of t))))) (parse_part_bad sp K0 L).
    generalize (cparts (kvs_of t)). intros l part Hbad P Kp. clear - Hbad P Kp. induction P as [|a b l l' Hab _ IH]; [destruct Kp|].
    destruct Kp as [-> | Kp]; [now apply Hbad in Hab|auto].
  - intros N. now rewrite N in Kp.
  - apply Forall_forall. intros part Hp. unfold cparts in Hp. rewrite sort_In in Hp. apply in_map_iff in Hp as ([sp' cs] & <- & Hp).
    apply group_items_In in Hp as (-> & Hp). cbn [fst snd]. now apply part_scan.
Qed.
End Tree.

Lemma parseable_iff s sts : streams (SText s) = Ok sts ->
  ((exists s' sts', concise_sensor_chan s = Ok s' /\ streams (SText s') = Ok sts') <-> ~ clash sts).
Proof.
  intros H. apply streams_inv in H as (t & Hw & Ht & ->). cbn in Ht. subst s. split.
  - intros (s' & sts' & E & E') C. apply streams_inv in E' as (t' & Hw' & Ht' & _). cbn in Ht'. subst s'.
    apply (clash_bad t Hw C _ t' E). now apply parse_text_ok.
  - intros C. destruct (concise_tree_gen t Hw (clash_apart t Hw C)) as (t' & Hw' & Ht' & _).
    exists (text t'), (map st_of (written t')). split; [trivial|]. now apply streams_text.
Qed.
Lemma keeps_no_clash s sts : streams (SText s) = Ok sts -> ~ clash sts ->
  (forall sensor names, has_stream sts sensor names -> Forall canonical names) ->
  exists s' sts', concise_sensor_chan s = Ok s' /\ streams (SText s') = Ok sts' /\
    forall sensor names, has_stream sts sensor names <-> has_stream sts' sensor names.
Proof.
  intros H C Hc. apply streams_inv in H as (t & Hw & Ht & ->). cbn in Ht. subst s.
  apply concise_keeps_gen; trivial. now apply clash_apart.
Qed.
