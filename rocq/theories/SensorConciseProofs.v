(* The concise form of sensor-channel specs. *)
From Verif Require Import SensorModel SensorSpec PyProofs ChanProofs ChanStreamProofs EncodeProofs SensorProofs SensorStreamProofs.
From Coq Require Import Permutation.
Local Open Scope string_scope.

(** ** Concise channel codes can be written *)
Definition wr (x : string) : Prop := exists c, wf_code c /\ text_code c = x.
Definition run_wf (r : run) : Prop :=
  match r with None => True | Some (root, a, b) => is_iden root = true /\ (0 <= a < b)%Z end.
Lemma format_ready_wr root a b : is_iden root = true -> (0 <= a < b)%Z -> wr (format_ready root a b).
Proof.
  intros H Hab. unfold format_ready. destruct (a + 1 =? b)%Z.
  - exists (Item root (Z_str a)). cbn. repeat split; trivial. apply Z_str_int. lia.
  - destruct (a =? 0)%Z.
    + exists (Stop root (Z_str b)). cbn. repeat split; trivial. apply Z_str_int. lia.
    + exists (Range "." root (Z_str a) (Z_str b)). cbn. repeat split; trivial; try (apply Z_str_int; lia); auto.
      unfold indexed. now rewrite <- app_assoc_s.
Qed.
Lemma concise_step_wr acc out part : nm part -> run_wf acc -> Forall wr out ->
  exists acc' out', concise_step (acc, out) part = Ok (acc', out') /\ run_wf acc' /\ Forall wr out' /\
    (acc' <> None \/ out' <> []).
Proof.
  intros Hp Ha Ho. unfold concise_step. destruct (nm_cases _ Hp) as [Hi | (id & i & Hi & Hn & ->)].
  - rewrite iden_no by (trivial; reflexivity). destruct acc as [[[r a] b]|]; cbn in Ha.
    + eexists _, _. split; [reflexivity|]. split; [exact I|]. split; [|right; now destruct out].
      apply Forall_app. split; [trivial|]. constructor; [now apply format_ready_wr|]. constructor; [|constructor].
      exists (Single part). auto.
    + eexists _, _. split; [reflexivity|]. split; [exact I|]. split; [|right; now destruct out].
      apply Forall_app. split; [trivial|]. constructor; [|constructor]. exists (Single part). auto.
  - rewrite contains_app. cbn [contains]. rewrite Ascii.eqb_refl, orb_true_r.
    rewrite split_app by now apply iden_no. rewrite split_no_sep by now apply int_no.
    destruct (py_int_digits _ Hn) as (z & -> & Hz). cbn [bind]. destruct acc as [[[r a] b]|]; cbn in Ha.
    + destruct Ha as (Hr & Hab). destruct (String.eqb r id && (z =? b)%Z) eqn:E.
      * eexists _, _. split; [reflexivity|]. split; [cbn; split; [trivial|lia]|]. split; [trivial|]. left. discriminate.
      * eexists _, _. split; [reflexivity|]. split; [cbn; split; [trivial|lia]|]. split; [|left; discriminate].
        apply Forall_app. split; [trivial|]. constructor; [now apply format_ready_wr|constructor].
    + eexists _, _. split; [reflexivity|]. split; [cbn; split; [trivial|lia]|]. split; [trivial|]. left. discriminate.
Qed.
Lemma concise_loop_wr parts : forall acc out, Forall nm parts -> run_wf acc -> Forall wr out ->
  exists acc' out', concise_loop (acc, out) parts = Ok (acc', out') /\ run_wf acc' /\ Forall wr out' /\
    (parts <> [] \/ acc <> None \/ out <> [] -> acc' <> None \/ out' <> []).
Proof.
  induction parts as [|p ps IH]; intros acc out Hp Ha Ho; cbn [concise_loop].
  - exists acc, out. repeat split; trivial. intros [H | H]; [congruence|trivial].
  - apply Forall_cons_iff in Hp as (Hp & Hps).
    destruct (concise_step_wr acc out p Hp Ha Ho) as (acc1 & out1 & E & Ha1 & Ho1 & Hn1). rewrite E. cbn [bind].
    destruct (IH acc1 out1 Hps Ha1 Ho1) as (acc2 & out2 & E2 & Ha2 & Ho2 & Hn2).
    exists acc2, out2. repeat split; trivial. intros _. apply Hn2. tauto.
Qed.
Lemma wr_group l : Forall wr l -> exists g, Forall wf_code g /\ l = map text_code g.
Proof.
  induction 1 as [|x l (c & Hc & Ht) _ (g & Hg & ->)]; [exists []; auto|].
  exists (c :: g). split; [auto|]. cbn. now rewrite Ht.
Qed.
Lemma concise_group l : Forall nm l ->
  exists g, concise (mkF l false) = Ok (mkF (map text_code g) false) /\ Forall wf_code g /\ (l <> [] -> g <> []).
Proof.
  intros H. destruct (names_of'_nm _ H) as (Hn & _).
  destruct (concise_loop_wr (names_of' l) None [] Hn I (Forall_nil _)) as (acc & out & E & Ha & Ho & Hne).
  unfold concise. rewrite normalize_nm by trivial. cbn [bind codes]. unfold run in E. rewrite E. cbn [bind].
  assert (Hl : l <> [] -> names_of' l <> []) by (intros K K2; apply K; now apply names_of'_nil).
  destruct acc as [[[r a] b]|].
  - destruct Ha as (Hr & Hab).
    destruct (wr_group (out ++ [format_ready r a b])) as (g & Hg & Eg).
    { apply Forall_app. split; [trivial|]. constructor; [now apply format_ready_wr|constructor]. }
    exists g. rewrite Eg. repeat split; trivial. intros _ ->. cbn in Eg. now destruct out.
  - destruct (wr_group out Ho) as (g & Hg & ->). exists g. repeat split; trivial. intros K ->.
    destruct (Hne (or_introl (Hl K))) as [K1 | K1]; now apply K1.
Qed.
Definition cg (g : group) : fused := match concise (mkF (gnames g) false) with Ok f => f | Err _ => mkF [] false end.
Lemma cg_spec g : Forall wf_code g -> concise (mkF (gnames g) false) = Ok (cg g) /\
  exists g', cg g = mkF (map text_code g') false /\ Forall wf_code g' /\ (gnames g <> [] -> g' <> []).
Proof.
  intros H. destruct (concise_group (gnames g) (gnames_nm _ H)) as (g' & E & Hg & Hn). unfold cg. rewrite E.
  split; [reflexivity|]. eauto.
Qed.
Lemma concise_denotes g : Forall wf_code g -> Forall canonical (names_of' (gnames g)) ->
  denotes_all (codes (cg g)) (names_of' (gnames g)).
Proof.
  intros H Hc. destruct (cg_spec _ H) as (E & g' & Eg & _). pose proof (gnames_nm _ H) as Hn.
  destruct (concise_roundtrip (mkF (gnames g) false) (mkF (names_of' (gnames g)) true)) as (f & Ef & En).
  - intros K. discriminate.
  - now apply normalize_nm.
  - exact Hc.
  - assert (f = cg g) as -> by congruence. apply normalize_denotes; [rewrite Eg; intros K; discriminate|]. now rewrite En.
Qed.

(** ** tr_items with concise channels *)
Lemma tr_items_true t : wf t ->
  tr_items true t = Ok (map (fun p => mkSN (fst p) (cg (snd p))) (written t)).
Proof.
  intros (_ & H). unfold tr_items.
  assert (G : forall gs, Forall (Forall wf_code) gs -> mapR (tr_group true) gs = Ok (map cg gs)).
  { induction 1 as [|g gs Hg _ IH]; [reflexivity|]. cbn [mapR map]. unfold tr_group at 1. fold (gnames g).
    destruct (cg_spec _ Hg) as (-> & _). now rewrite IH. }
  assert (R : forall r, wf_rhs r -> Forall (Forall wf_code) (rhs_groups r)).
  { intros [g|gs]; cbn; intros (Hn & K); [auto|]. eapply Forall_impl; [|exact K]. intros g (_ & Hg). trivial. }
  assert (T : forall i, wf_item i -> tr_item true i = Ok (map (fun p => mkSN (fst p) (cg (snd p))) (item_streams i))).
  { intros i Hi. destruct i as [l [r|]|r]; unfold tr_item, tr_rhs; cbn [wf_item] in Hi.
    - rewrite G by (apply R; tauto). cbn [bind item_streams]. f_equal.
      generalize (rhs_groups r). intros gs. induction (lhs_sensors l) as [|a s IH]; [reflexivity|].
      cbn [flat_map list_prod]. rewrite map_app, IH, !map_map. reflexivity.
    - cbn [bind item_streams]. f_equal. induction (lhs_sensors l) as [|a s IH]; [reflexivity|].
      cbn [flat_map list_prod map app] in *. rewrite IH. reflexivity.
    - rewrite G by (apply R; tauto). cbn [bind item_streams list_prod]. now rewrite app_nil_r, !map_map. }
  replace (mapR (tr_item true) t) with (Ok (map (fun i => map (fun p => mkSN (fst p) (cg (snd p))) (item_streams i)) t)).
  - cbn [bind]. f_equal. unfold written. rewrite flat_map_concat_map, concat_map, map_map. reflexivity.
  - symmetry. induction H as [|i t Hi _ IH]; [reflexivity|]. cbn [mapR map]. now rewrite T, IH.
Qed.

(** ** Grouping *)
Definition vals (k : string) (kvs : list (string * string)) : list string :=
  map snd (filter (fun kv => String.eqb (fst kv) k) kvs).
Lemma vals_In k kvs v : In v (vals k kvs) <-> In (k, v) kvs.
Proof.
  unfold vals. rewrite in_map_iff. split.
  - intros ([k' v'] & <- & H). apply filter_In in H as (H & E). apply String.eqb_eq in E. cbn in *. now subst.
  - intros H. exists (k, v). split; [reflexivity|]. apply filter_In. split; [trivial|]. apply String.eqb_refl.
Qed.
Lemma group_items_gen kvs : forall d done,
  NoDup (map fst d) ->
  (forall k, dict_get k d = match vals k done with [] => None | l => Some l end) ->
  let r := fold_left (fun d kv => dict_set (fst kv) (match dict_get (fst kv) d with Some l => l ++ [snd kv] | None => [snd kv] end)%list d) kvs d in
  NoDup (map fst r) /\
  (forall k, dict_get k r = match vals k (done ++ kvs) with [] => None | l => Some l end).
Proof.
  induction kvs as [|[k v] kvs IH]; cbn [fold_left fst snd]; intros d done Hd Hg.
  - now rewrite app_nil_r.
  - replace (done ++ (k, v) :: kvs)%list with ((done ++ [(k, v)]) ++ kvs)%list by now rewrite <- app_assoc.
    apply IH; [now apply dict_set_NoDup|]. intros k2.
    assert (E : vals k2 (done ++ [(k, v)]) = (vals k2 done ++ if String.eqb k k2 then [v] else [])%list).
    { unfold vals. rewrite filter_app, map_app. cbn. now destruct (String.eqb k k2). }
    rewrite E. destruct (String.eqb_spec k k2) as [-> | Hn].
    + rewrite dict_get_set_same, Hg. destruct (vals k2 done); reflexivity.
    + rewrite dict_get_set_other by congruence. rewrite app_nil_r. apply Hg.
Qed.
Lemma group_items_In kvs k l : In (k, l) (group_items kvs) <-> l = vals k kvs /\ l <> [].
Proof.
  destruct (group_items_gen kvs [] []) as (Hn & Hg); [constructor|reflexivity|]. fold (group_items kvs) in Hn, Hg.
  cbn [app] in Hg. specialize (Hg k). split.
  - intros H. apply dict_In_get in H; trivial. rewrite H in Hg. destruct (vals k kvs); [discriminate|].
    injection Hg as ->. split; [reflexivity|discriminate].
  - intros (-> & Hl). apply dict_get_In. rewrite Hg. now destruct (vals k kvs).
Qed.
Lemma group_items_ne kvs : kvs <> [] -> group_items kvs <> [].
Proof.
  intros H E. destruct kvs as [|[k v] kvs]; [congruence|].
  assert (K : In (k, vals k ((k, v) :: kvs)) (group_items ((k, v) :: kvs))).
  { apply group_items_In. split; [reflexivity|]. unfold vals. cbn. rewrite String.eqb_refl. discriminate. }
  rewrite E in K. destruct K.
Qed.
Lemma insert_str_perm x l : Permutation (insert_str x l) (x :: l).
Proof.
  induction l as [|y l IH]; cbn; [reflexivity|]. destruct (String.leb x y); [reflexivity|].
  rewrite IH. constructor.
Qed.
Lemma sort_strs_perm l : Permutation (sort_strs l) l.
Proof. induction l as [|x l IH]; cbn; [reflexivity|]. rewrite insert_str_perm. now constructor. Qed.
Lemma sort_In x l : In x (sort_strs l) <-> In x l.
Proof. split; apply Permutation_in; [|symmetry]; apply sort_strs_perm. Qed.

(** ** The text of the concise form *)
Definition sp_of (sensors : list string) : string :=
  let part := join "," (sort_strs (oset_of sensors)) in
  if Nat.ltb 1 (List.length sensors) then parens part else part.
Definition cp_of (chans : list string) : string :=
  let part := join "," chans in if Nat.ltb 1 (List.length chans) then parens part else part.
Definition pass1 (kvs : list (string * string)) : list (string * string) :=
  map (fun cs => (sp_of (snd cs), fst cs)) (group_items kvs).
Definition cparts (kvs : list (string * string)) : list string :=
  sort_strs (map (fun sc => fst sc ++ String ":" (cp_of (snd sc))) (group_items (pass1 kvs))).
Lemma concise_parts_eq nodes :
  concise_parts nodes = cparts (map (fun n => (fspec (sn_chan n), sn_sensor n)) nodes).
Proof. reflexivity. Qed.

Definition lhs_of (sensors : list string) : lhs :=
  if Nat.ltb 1 (List.length sensors) then Sensors (sort_strs (oset_of sensors))
  else OneSensor (join "," (sort_strs (oset_of sensors))).
Lemma one_or_more {A} (l : list A) : l <> [] -> (exists x, l = [x]) \/ Nat.ltb 1 (List.length l) = true.
Proof. destruct l as [|x [|y l]]; [congruence|left; eauto|right; reflexivity]. Qed.
Lemma lhs_of_spec sensors : some (fun s => is_iden s = true) sensors ->
  wf_lhs (lhs_of sensors) /\ text_lhs (lhs_of sensors) = sp_of sensors ++ ":" /\
  (forall s, In s (lhs_sensors (lhs_of sensors)) <-> In s sensors).
Proof.
  intros (Hn & H). destruct (one_or_more _ Hn) as [(x & ->) | E].
  - cbn. apply Forall_cons_iff in H as (H & _). repeat split; trivial; tauto.
  - unfold lhs_of, sp_of. rewrite E. cbn [wf_lhs text_lhs lhs_sensors]. split; [|split].
    + split.
      * intros K. destruct sensors as [|x sensors]; [congruence|].
        assert (In x (sort_strs (oset_of (x :: sensors)))) as Hx by (apply sort_In, oset_of_In; now left).
        rewrite K in Hx. destruct Hx.
      * apply Forall_forall. intros x Hx. rewrite sort_In, oset_of_In in Hx. rewrite Forall_forall in H. now apply H.
    + unfold parens. cbn [append]. f_equal. now rewrite <- app_assoc_s.
    + intros s. now rewrite sort_In, oset_of_In.
Qed.
(* the sensor part tells the set of sensors *)
Lemma sp_of_inj a b : some (fun s => is_iden s = true) a -> some (fun s => is_iden s = true) b ->
  sp_of a = sp_of b -> forall s, In s a <-> In s b.
Proof.
  intros Ha Hb E s. destruct (lhs_of_spec a Ha) as (Wa & Ta & Sa). destruct (lhs_of_spec b Hb) as (Wb & Tb & Sb).
  assert (K : parse_item (text_item (WithSensor (lhs_of a) None)) = parse_item (text_item (WithSensor (lhs_of b) None))).
  { cbn [text_item]. now rewrite Ta, Tb, E. }
  rewrite !parse_text_item in K by trivial. injection K as K. now rewrite <- Sa, <- Sb, K.
Qed.
Definition rhs_of (gs : list group) : rhs :=
  match gs with [g] => OneGroup g | _ => Groups gs end.
Lemma rhs_of_spec gs : some (some wf_code) gs ->
  wf_rhs (rhs_of gs) /\ text_rhs (rhs_of gs) = cp_of (map text_group gs) /\ rhs_groups (rhs_of gs) = gs.
Proof.
  intros (Hn & H). destruct gs as [|g [|g2 gs]]; [congruence| |].
  - cbn. apply Forall_cons_iff in H as (H & _). auto.
  - unfold rhs_of. cbn [wf_rhs text_rhs rhs_groups]. repeat split; trivial.
Qed.

Definition pairs (l : list (string * group)) (s x : string) : Prop := exists g, In (s, g) l /\ text_group g = x.
(* no channels share their sensor part with the streams without channels *)
Definition apart (kvs : list (string * string)) : Prop :=
  forall x, vals x kvs <> [] -> vals "" kvs <> [] -> sp_of (vals x kvs) = sp_of (vals "" kvs) -> x = "".
Lemma group_items_keys kvs : NoDup (map fst (group_items kvs)).
Proof. destruct (group_items_gen kvs [] []) as (Hn & _); [constructor|reflexivity|exact Hn]. Qed.
Lemma vals_NoDup k kvs : NoDup (map snd kvs) -> NoDup (vals k kvs).
Proof.
  unfold vals. induction kvs as [|[a b] kvs IH]; cbn; intros H; [constructor|]. inversion H as [|? ? H1 H2]; subst.
  destruct (String.eqb a k); cbn; [|auto]. constructor; [|auto]. intros K. apply H1.
  apply in_map_iff in K as (p & <- & K). apply filter_In in K as (K & _). now apply in_map.
Qed.
Lemma pass1_NoDup kvs : NoDup (map snd (pass1 kvs)).
Proof. unfold pass1. rewrite map_map. cbn [snd]. apply group_items_keys. Qed.
Definition opt_rhs_of (gs : list group) : option rhs := match gs with [[]] => None | _ => Some (rhs_of gs) end.
Lemma opt_rhs_of_spec gs : some (some wf_code) gs \/ gs = [[]] ->
  wf_opt (opt_rhs_of gs) /\ text_opt (opt_rhs_of gs) = cp_of (map text_group gs) /\
  forall l, item_streams (WithSensor l (opt_rhs_of gs)) = list_prod (lhs_sensors l) gs.
Proof.
  intros [H | ->]; [|repeat split; reflexivity].
  assert (E : opt_rhs_of gs = Some (rhs_of gs)) by (destruct H as (_ & H); destruct gs as [|[|c g] [|g2 gs]]; trivial; inversion H as [|? ? (K & _) _]; congruence).
  rewrite E. destruct (rhs_of_spec _ H) as (H1 & H2 & H3). repeat split; trivial. intros l. cbn [item_streams]. now rewrite H3.
Qed.
Lemma cparts_tree kvs : kvs <> [] ->
  (forall x s, In (x, s) kvs -> is_iden s = true /\ (x = "" \/ exists g, some wf_code g /\ text_group g = x)) ->
  apart kvs ->
  exists t, wf t /\ text t = join "," (cparts kvs) /\ (forall s x, pairs (written t) s x <-> In (x, s) kvs).
Proof.
  intros Hn H Ha.
  assert (Hv : forall x, vals x kvs <> [] -> some (fun s => is_iden s = true) (vals x kvs)).
  { intros x Hx. split; [trivial|]. apply Forall_forall. intros s Hs. apply vals_In in Hs. now apply H in Hs. }
  assert (P1 : forall sp x, In (sp, x) (pass1 kvs) <-> vals x kvs <> [] /\ sp = sp_of (vals x kvs)).
  { intros sp x. unfold pass1. rewrite in_map_iff. split.
    - intros ([x' l] & E & K). apply group_items_In in K as (-> & K). injection E as <- <-. auto.
    - intros (K & ->). exists (x, vals x kvs). split; [reflexivity|]. apply group_items_In. auto. }
  set (Q := fun (part : string) (R : string -> string -> Prop) =>
              exists i, wf_item i /\ text_item i = part /\ forall s x, pairs (item_streams i) s x <-> R s x).
  assert (E1 : forall sp cs, In (sp, cs) (group_items (pass1 kvs)) ->
          Q (sp ++ String ":" (cp_of cs)) (fun s x => In (x, s) kvs /\ sp = sp_of (vals x kvs))).
  { intros sp cs K. apply group_items_In in K as (-> & Hne).
    assert (Hcs : forall x, In x (vals sp (pass1 kvs)) <-> vals x kvs <> [] /\ sp = sp_of (vals x kvs))
      by (intros x; rewrite vals_In; apply P1).
    pose proof (vals_NoDup sp _ (pass1_NoDup kvs)) as Hnd.
    revert Hne Hcs Hnd. generalize (vals sp (pass1 kvs)). intros cs Hne Hcs Hnd.
    assert (Eg : exists gs, (some (some wf_code) gs \/ gs = [[]]) /\ map text_group gs = cs).
    { destruct (in_dec string_dec "" cs) as [H0 | H0].
      - apply Hcs in H0 as (H0 & E0). exists [[]]. split; [now right|].
        assert (A : forall x, In x cs -> x = "") by (intros x Hx; apply Hcs in Hx as (Hx & Ex); apply Ha; trivial; congruence).
        destruct cs as [|a [|b cs]]; [congruence|cbn; f_equal; symmetry; apply A; now left|].
        exfalso. inversion Hnd as [|? ? N _]; subst. apply N. rewrite (A a), (A b) by (cbn; auto). now left.
      - assert (Eg : exists gs, Forall (some wf_code) gs /\ map text_group gs = cs).
        { assert (Hx : Forall (fun x => exists g, some wf_code g /\ text_group g = x) cs).
          { apply Forall_forall. intros x Hx. pose proof Hx as Hx0. apply Hcs in Hx as (Hx & _). destruct (vals x kvs) as [|s l] eqn:Ev; [congruence|].
            assert (In s (vals x kvs)) as K by (rewrite Ev; now left). apply vals_In in K. apply H in K as (_ & [-> | K]); [contradiction|exact K]. }
          clear - Hx. induction Hx as [|x cs (g & Hg & Ht) _ (gs & Hgs & Hm)]; [exists []; auto|].
          exists (g :: gs). split; [auto|]. cbn. congruence. }
        destruct Eg as (gs & Hgs & Hm). exists gs. split; [|trivial]. left. split; [|trivial]. intros ->. cbn in Hm. congruence. }
    destruct Eg as (gs & Hgs & Hm). destruct cs as [|x0 cs]; [congruence|]. set (cs0 := x0 :: cs) in *.
    assert (H0 : In x0 cs0) by now left. apply Hcs in H0 as (H0 & Esp).
    destruct (lhs_of_spec _ (Hv _ H0)) as (Wl & Tl & Sl). destruct (opt_rhs_of_spec _ Hgs) as (Wr & Tr & Sr).
    exists (WithSensor (lhs_of (vals x0 kvs)) (opt_rhs_of gs)). split; [apply wf_item_eq; split; trivial|]. split.
    - rewrite item_text_eq, Tl, Tr, Hm, Esp, <- app_assoc_s. reflexivity.
    - intros s x. unfold pairs. rewrite Sr. split.
      + intros (g & K & <-). apply in_prod_iff in K as (Ks & Kg). apply Sl in Ks.
        assert (Hx : In (text_group g) cs0) by (rewrite <- Hm; now apply in_map). apply Hcs in Hx as (Hx & Ex).
        split; [|trivial]. apply vals_In. apply (sp_of_inj (vals x0 kvs)); auto. congruence.
      + intros (K & Ex). apply vals_In in K. assert (Hx : vals x kvs <> []) by (intros N; now rewrite N in K).
        assert (In x cs0) as Kx by (apply Hcs; auto). rewrite <- Hm in Kx. apply in_map_iff in Kx as (g & Eg & Kg).
        exists g. split; [|trivial]. apply in_prod_iff. split; [|trivial]. apply Sl.
        apply (sp_of_inj (vals x kvs)); auto. congruence. }
  set (entries := group_items (pass1 kvs)) in *.
  assert (E2 : forall parts, Forall (fun part => exists sp cs, In (sp, cs) entries /\ part = sp ++ String ":" (cp_of cs)) parts ->
     exists t, Forall wf_item t /\ map text_item t = parts /\
       forall s x, pairs (written t) s x <->
                   exists part, In part parts /\ exists sp cs, In (sp, cs) entries /\ part = sp ++ String ":" (cp_of cs) /\
                                In (x, s) kvs /\ sp = sp_of (vals x kvs)).
  { induction 1 as [|part parts (sp & cs & K & Ep) _ (t & T1 & T2 & T3)].
    - exists []. repeat split; auto; [intros (g & [] & _)|intros (part & [] & _)].
    - destruct (E1 _ _ K) as (i & I1 & I2 & I3). exists (i :: t). split; [auto|]. split; [cbn; congruence|].
      intros s x. assert (Ep2 : pairs (written (i :: t)) s x <-> pairs (item_streams i) s x \/ pairs (written t) s x).
      { unfold pairs, written. cbn [flat_map]. split.
        - intros (g & Kg & Tg). apply in_app_iff in Kg as [Kg | Kg]; [left|right]; eauto.
        - intros [(g & Kg & Tg) | (g & Kg & Tg)]; exists g; (split; [apply in_app_iff; auto|trivial]). }
      rewrite Ep2, T3. split.
      + intros [Ki | (part2 & Kp & rest)].
        * apply I3 in Ki as (K1 & K2). exists part. split; [now left|]. eauto 8.
        * exists part2. split; [now right|]. trivial.
      + intros (part2 & [<- | Kp] & sp2 & cs2 & K1 & K2 & K3 & K4); [|right; eauto 10].
        left. apply I3. split; [trivial|].
        (* the same text has the same sensor part *)
        rewrite Ep in K2. destruct (E1 _ _ K1) as (i2 & J1 & J2 & J3).
        assert (i = i2) as <-.
        { assert (Ok i = Ok i2) as Ei by (rewrite <- (parse_text_item i), <- (parse_text_item i2) by trivial; congruence). congruence. }
        apply (I3 s x). apply J3. auto. }
  destruct (E2 (cparts kvs)) as (t & T1 & T2 & T3).
  { apply Forall_forall. intros part K. unfold cparts in K. rewrite sort_In in K. apply in_map_iff in K as ([sp cs] & <- & K).
    exists sp, cs. auto. }
  exists t. split; [|split].
  - split; [|trivial]. intros ->. cbn in T2. assert (Hc : map (fun sc => fst sc ++ String ":" (cp_of (snd sc))) entries = []).
    { unfold cparts in T2. fold entries in T2. symmetry in T2. apply Permutation_nil. rewrite <- T2. apply sort_strs_perm. }
    apply map_eq_nil in Hc. revert Hc. apply group_items_ne. unfold pass1. intros Hc. apply map_eq_nil in Hc. revert Hc. now apply group_items_ne.
  - unfold text. now rewrite T2.
  - intros s x. rewrite T3. split.
    + intros (_ & _ & sp & cs & _ & _ & K & _). trivial.
    + intros K. set (sp := sp_of (vals x kvs)). assert (Hx : vals x kvs <> []) by (apply vals_In in K; intros N; now rewrite N in K).
      assert (K1 : In (sp, x) (pass1 kvs)) by (apply P1; auto). apply vals_In in K1.
      assert (K2 : In (sp, vals sp (pass1 kvs)) entries) by (apply group_items_In; split; [reflexivity|]; intros N; now rewrite N in K1).
      exists (sp ++ String ":" (cp_of (vals sp (pass1 kvs)))). split; [|eauto 8].
      unfold cparts. rewrite sort_In. apply in_map_iff. exists (sp, vals sp (pass1 kvs)). auto.
Qed.

Definition kvs_of (t : list item) : list (string * string) := map (fun p => (fspec (cg (snd p)), fst p)) (written t).
Lemma text_group_inj g g' : Forall wf_code g -> Forall wf_code g' -> text_group g = text_group g' -> g = g'.
Proof.
  intros H H' E. destruct g as [|c g], g' as [|c' g']; trivial.
  - destruct (group_head (c' :: g')) as (a & u & Eh & _); [split; [discriminate|trivial]|]. rewrite Eh in E. discriminate.
  - destruct (group_head (c :: g)) as (a & u & Eh & _); [split; [discriminate|trivial]|]. rewrite Eh in E. discriminate.
  - assert (P1 : parse_group (text_group (c :: g)) = Ok (c :: g)) by (apply parse_text_group; split; [discriminate|trivial]).
    assert (P2 : parse_group (text_group (c' :: g')) = Ok (c' :: g')) by (apply parse_text_group; split; [discriminate|trivial]).
    congruence.
Qed.
Lemma cg_text g : Forall wf_code g -> exists g', Forall wf_code g' /\ codes (cg g) = map text_code g' /\ text_group g' = fspec (cg g) /\
  (gnames g <> [] -> g' <> []).
Proof. intros H. destruct (cg_spec _ H) as (_ & g' & Eg & Hg' & Hn'). exists g'. rewrite Eg. repeat split; trivial. Qed.
Lemma cg_empty g : Forall wf_code g -> (fspec (cg g) = "" <-> gnames g = []).
Proof.
  intros H. destruct (cg_text _ H) as (g' & Hg' & _ & Et & Hn). split.
  - intros E. rewrite E in Et. destruct (gnames g) as [|n l]; trivial. exfalso.
    destruct (group_head g') as (c & u & Eh & _); [split; [apply Hn; discriminate|trivial]|]. congruence.
  - intros E. unfold cg. rewrite E. reflexivity.
Qed.
Lemma concise_tree_gen t : wf t -> apart (kvs_of t) ->
  exists t', wf t' /\ concise_sensor_chan (text t) = Ok (text t') /\
    (forall s g', In (s, g') (written t') -> exists g, In (s, g) (written t) /\ codes (cg g) = map text_code g') /\
    (forall s g, In (s, g) (written t) -> exists g', In (s, g') (written t') /\ codes (cg g) = map text_code g').
Proof.
  intros Hw Ha. pose proof (written_wf _ Hw) as W. rewrite Forall_forall in W. unfold kvs_of in Ha.
  set (kvs := map (fun p => (fspec (cg (snd p)), fst p)) (written t)) in *.
  assert (C : forall s g, In (s, g) (written t) -> exists g', Forall wf_code g' /\ codes (cg g) = map text_code g' /\ text_group g' = fspec (cg g)).
  { intros s g K. destruct (W _ K) as (_ & Hg). cbn [snd] in Hg. destruct (cg_text _ Hg) as (g' & H1 & H2 & H3 & _). eauto. }
  destruct (cparts_tree kvs) as (t' & Hw' & Ht' & Hp).
  { unfold kvs. intros K. apply map_eq_nil in K. now apply written_ne in K. }
  { intros x s K. unfold kvs in K. apply in_map_iff in K as ([s' g] & E & K). cbn in E. injection E as <- ->.
    split; [apply (W _ K)|]. destruct (C _ _ K) as (g' & Hg' & _ & Et). destruct g' as [|c g']; [left; now rewrite <- Et|].
    right. exists (c :: g'). split; [split; [discriminate|trivial]|trivial]. }
  { exact Ha. }
  exists t'. split; [trivial|]. split; [|split].
  - unfold concise_sensor_chan. rewrite parse_text_ok by trivial. cbn [bind]. rewrite tr_items_true by trivial. cbn [bind].
    rewrite concise_parts_eq, map_map. cbn [sn_chan sn_sensor]. fold kvs. now rewrite Ht'.
  - intros s g' K. assert (Kp : pairs (written t') s (text_group g')) by (exists g'; auto). apply Hp in Kp.
    unfold kvs in Kp. apply in_map_iff in Kp as ([s2 g] & E & Kg). cbn in E. injection E as E ->. exists g. split; [trivial|].
    destruct (C _ _ Kg) as (g2 & Hg2 & E2 & T2). rewrite E2. f_equal. apply text_group_inj; [trivial| |congruence].
    pose proof (written_wf _ Hw') as W'. rewrite Forall_forall in W'. apply (W' _ K).
  - intros s g K. destruct (C _ _ K) as (g2 & Hg2 & E2 & T2).
    assert (Kp : pairs (written t') s (fspec (cg g))).
    { apply Hp. unfold kvs. apply in_map_iff. exists (s, g). auto. }
    destruct Kp as (g' & Kg & Tg). exists g'. split; [trivial|]. rewrite E2. f_equal. apply text_group_inj; [trivial| |congruence].
    pose proof (written_wf _ Hw') as W'. rewrite Forall_forall in W'. apply (W' _ Kg).
Qed.
Lemma full_apart t : wf t -> Forall (fun p => gnames (snd p) <> []) (written t) -> apart (kvs_of t).
Proof.
  intros Hw Hne x _ H0 _. exfalso. pose proof (written_wf _ Hw) as W. rewrite Forall_forall in W, Hne.
  destruct (vals "" (kvs_of t)) as [|s l] eqn:E; [congruence|].
  assert (K : In s (vals "" (kvs_of t))) by (rewrite E; now left). apply vals_In in K. unfold kvs_of in K.
  apply in_map_iff in K as ([s' g] & Eg & K). cbn [fst snd] in Eg. injection Eg as Eg ->.
  apply (Hne _ K). cbn [snd]. apply cg_empty; [apply (W _ K)|exact Eg].
Qed.
Lemma concise_tree t : wf t -> Forall (fun p => gnames (snd p) <> []) (written t) ->
  exists t', wf t' /\ concise_sensor_chan (text t) = Ok (text t') /\
    (forall s g', In (s, g') (written t') -> exists g, In (s, g) (written t) /\ codes (cg g) = map text_code g') /\
    (forall s g, In (s, g) (written t) -> exists g', In (s, g') (written t') /\ codes (cg g) = map text_code g').
Proof. intros Hw Hne. apply concise_tree_gen; [trivial|]. now apply full_apart. Qed.

Definition full (sts : list (string * fused)) : Prop := Forall (fun st => codes (snd st) <> []) sts.
Lemma full_written t : full (map st_of (written t)) -> Forall (fun p => gnames (snd p) <> []) (written t).
Proof. unfold full. intros H. rewrite Forall_map in H. exact H. Qed.

Lemma concise_keeps_gen t : wf t -> apart (kvs_of t) -> let sts := map st_of (written t) in
  (forall sensor names, has_stream sts sensor names -> Forall canonical names) ->
  exists s' sts', concise_sensor_chan (text t) = Ok s' /\
    streams (SText s') = Ok sts' /\
    forall sensor names, has_stream sts sensor names <-> has_stream sts' sensor names.
Proof.
  intros Hw Ha sts Hc. unfold sts in *.
  assert (H : streams (SText (text t)) = Ok (map st_of (written t))) by now apply streams_text.
  pose proof (streams_ok _ _ H) as (_ & Hok).
  destruct (concise_tree_gen t Hw Ha) as (t' & Hw' & Ht' & H1 & H2).
  exists (text t'), (map st_of (written t')). split; [trivial|]. split; [now apply streams_text|].
  pose proof (written_wf _ Hw) as W. pose proof (written_wf _ Hw') as W'. rewrite Forall_forall in W, W'.
  assert (D : forall s g g', In (s, g) (written t) -> In (s, g') (written t') -> codes (cg g) = map text_code g' ->
              names_of' (gnames g') = names_of' (gnames g)).
  { intros s g g' K K' E. destruct (W _ K) as (_ & Hg). destruct (W' _ K') as (_ & Hg').
    apply (denotes_all_functional (map text_code g')); [now apply group_denotes|]. rewrite <- E.
    apply concise_denotes; [trivial|]. apply (Hc s). exists (st_of (s, g)). split; [now apply in_map|].
    apply (stream_okst_is (st_of (s, g))). rewrite Forall_forall in Hok. apply Hok. now apply in_map. }
  assert (S : forall l s n, (forall p, In p l -> Forall wf_code (snd p)) ->
            (has_stream (map st_of l) s n <-> exists g, In (s, g) l /\ n = names_of' (gnames g))).
  { intros l s n Hl. unfold has_stream. split.
    - intros (st & K & (E1 & _ & E3)). apply in_map_iff in K as ([s' g] & <- & K). cbn in *. subst s'.
      exists g. split; [trivial|]. apply (denotes_all_functional _ _ _ E3). apply denotes_nm, gnames_nm. apply (Hl _ K).
    - intros (g & K & ->). exists (st_of (s, g)). split; [now apply in_map|]. repeat split. cbn. apply denotes_nm, gnames_nm. apply (Hl _ K). }
  intros sensor names. rewrite !S by (intros p Kp; (apply (W _ Kp) || apply (W' _ Kp))). split.
  - intros (g & K & ->). destruct (H2 _ _ K) as (g' & K' & E). exists g'. split; [trivial|]. symmetry. now apply (D sensor).
  - intros (g' & K' & ->). destruct (H1 _ _ K') as (g & K & E). exists g. split; [trivial|]. now apply (D sensor).
Qed.
Lemma concise_keeps s sts : streams (SText s) = Ok sts -> full sts ->
  (forall sensor names, has_stream sts sensor names -> Forall canonical names) ->
  exists s' sts', concise_sensor_chan s = Ok s' /\
    streams (SText s') = Ok sts' /\
    forall sensor names, has_stream sts sensor names <-> has_stream sts' sensor names.
Proof.
  intros H Hf Hc. apply streams_inv in H as (t & Hw & Ht & ->). cbn in Ht. subst s.
  apply concise_keeps_gen; trivial. apply full_apart; [trivial|]. now apply full_written.
Qed.
Lemma concise_parseable s sts : streams (SText s) = Ok sts -> full sts ->
  exists s' sts', concise_sensor_chan s = Ok s' /\
    streams (SText s') = Ok sts'.
Proof.
  intros H Hf. apply streams_inv in H as (t & Hw & Ht & ->). cbn in Ht. subst s.
  destruct (concise_tree t Hw (full_written _ Hf)) as (t' & Hw' & Ht' & _). exists (text t'), (map st_of (written t')).
  split; [trivial|]. now apply streams_text.
Qed.
