(* Streams, normalize, split, matching_sensor. *)
From Verif Require Import SensorModel SensorSpec PyProofs ChanProofs ChanStreamProofs EncodeProofs SensorProofs.
Local Open Scope string_scope.

(** ** Names *)
(* a channel name: an identifier, or an identifier with one index *)
Definition nm (n : string) : Prop := exists c, wf_code c /\ text_code c = n /\ code_names c = [n].
Lemma nm_iden n : is_iden n = true -> nm n.
Proof. intros H. exists (Single n). repeat split; trivial. Qed.
Lemma nm_indexed id i : is_iden id = true -> (0 <= i)%Z -> nm (indexed id i).
Proof. intros H Hi. exists (Item id (Z_str i)). cbn. repeat split; trivial. now apply Z_str_int. Qed.
Lemma zrange_In a b i : In i (zrange a b) <-> (a <= i < b)%Z.
Proof.
  unfold zrange. rewrite in_map_iff. split.
  - intros (k & <- & Hk). apply zseq_In in Hk. lia.
  - intros H. exists (i - a)%Z. split; [lia|]. apply zseq_In. lia.
Qed.
Lemma code_names_nm c : wf_code c -> Forall nm (code_names c).
Proof.
  destruct c as [id|id i|id b|sep id a b]; cbn [code_names]; intros H.
  - constructor; [|constructor]. exists (Single id). auto.
  - constructor; [|constructor]. exists (Item id i). auto.
  - destruct H as (H & Hb). apply Forall_forall. intros x Hx. apply in_map_iff in Hx as (i & <- & Hi).
    apply zrange_In in Hi. apply nm_indexed; [trivial|lia].
  - destruct H as (H & Ha & Hb & _). apply Forall_forall. intros x Hx. apply in_map_iff in Hx as (i & <- & Hi).
    apply zrange_In in Hi. apply nm_indexed; [trivial|]. destruct (int_value_lit _ Ha). lia.
Qed.
Lemma nm_cases n : nm n -> is_iden n = true \/ exists id i, is_iden id = true /\ is_int i = true /\ n = id ++ String "." i.
Proof.
  intros (c & Hw & Ht & Hn). destruct c as [id|id i|id b|sep id a b]; cbn [wf_code text_code code_names] in *.
  - left. congruence.
  - right. exists id, i. destruct Hw. auto.
  - exfalso. assert (D : contains ":" n = true) by (rewrite <- Ht, contains_app; cbn; apply orb_true_r).
    assert (In n (map (indexed id) (zrange 0 (int_value b)))) as Hx by (rewrite Hn; now left).
    apply in_map_iff in Hx as (i & E & _). destruct Hw as (Hi & _). rewrite <- E in D. unfold indexed in D.
    rewrite contains_app, iden_no in D by (trivial; reflexivity). cbn in D. rewrite Z_str_no in D by (reflexivity || discriminate). discriminate.
  - exfalso. assert (D : contains ":" n = true)
      by (rewrite <- Ht, contains_app; cbn; rewrite contains_app; cbn; now rewrite !orb_true_r).
    assert (In n (map (indexed id) (zrange (int_value a) (int_value b)))) as Hx by (rewrite Hn; now left).
    apply in_map_iff in Hx as (i & E & _). destruct Hw as (Hi & _). rewrite <- E in D. unfold indexed in D.
    rewrite contains_app, iden_no in D by (trivial; reflexivity). cbn in D. rewrite Z_str_no in D by (reflexivity || discriminate). discriminate.
Qed.
Lemma nm_no d n : nm n -> iden_rest d = false -> d <> "."%char -> contains d n = false.
Proof.
  intros H H1 H2. assert (H3 : dec_digit d = false).
  { apply not_true_is_false. intros D. unfold iden_rest in H1. rewrite D, orb_true_r in H1. discriminate. }
  destruct (nm_cases _ H) as [Hi | (id & i & Ha & Hb & ->)]; [now apply iden_no|].
  rewrite contains_app, iden_no by trivial. cbn [contains]. rewrite int_no by trivial.
  assert (Ascii.eqb "." d = false) as -> by (apply Ascii.eqb_neq; congruence). reflexivity.
Qed.
Lemma nm_expand n : nm n -> expand n = Ok (match alias_lut n with Some l => l | None => [n] end).
Proof. intros H. unfold expand. destruct (alias_lut n); [reflexivity|]. now rewrite nm_no. Qed.
Lemma nm_expand_nm n l : nm n -> expand n = Ok l -> Forall nm l /\ l <> [] /\ Forall atomic l.
Proof.
  intros H E. pose proof (expand_denotes n l) as D. assert (Da : denotes n l) by tauto.
  pose proof (denotes_atomic _ _ Da) as Hat. rewrite nm_expand in E by trivial. injection E as <-.
  destruct (alias_lut n) as [l|] eqn:Ea; [|repeat split; trivial; [now constructor|discriminate]].
  apply alias_lut_Some in Ea. repeat split; trivial.
  - cbn in Ea. repeat destruct Ea as [Ea|Ea]; try tauto; injection Ea as <- <-; repeat constructor; now apply nm_iden.
  - cbn in Ea. repeat destruct Ea as [Ea|Ea]; try tauto; injection Ea as <- <-; discriminate.
Qed.

(* the names a code list of names stands for *)
Definition names_of' (l : list string) : list string :=
  flat_map (fun n => match alias_lut n with Some l => l | None => [n] end) l.
Lemma mapR_nm l : Forall nm l -> exists ls, mapR expand l = Ok ls /\ List.concat ls = names_of' l.
Proof.
  induction 1 as [|n l Hn _ IH]; [exists []; auto|]. destruct IH as (ls & E & Ec).
  eexists. cbn. rewrite nm_expand by trivial. cbn. rewrite E. cbn. split; [reflexivity|]. cbn. now rewrite Ec.
Qed.
Lemma denotes_nm l : Forall nm l -> denotes_all l (names_of' l).
Proof.
  intros H. destruct (mapR_nm _ H) as (ls & E & Ec). exists ls. split; [|auto].
  apply mapR_Forall2 in E. eapply Forall2_imp; [|exact E]. intros a b. apply expand_denotes.
Qed.
Lemma denotes_all_functional l a b : denotes_all l a -> denotes_all l b -> a = b.
Proof.
  intros (x & Hx & ->) (y & Hy & ->). f_equal. revert y Hy. induction Hx as [|c n l ls H _ IH]; intros y Hy.
  - now inversion Hy.
  - inversion Hy as [|c' m l' ms Hm Hms]; subst. f_equal; [|auto]. eapply denotes_functional; eassumption.
Qed.
Lemma names_of'_nm l : Forall nm l -> Forall nm (names_of' l) /\ Forall atomic (names_of' l).
Proof.
  intros H. unfold names_of'. split; apply Forall_flat_map; (eapply Forall_impl; [|exact H]); intros n Hn;
    destruct (nm_expand_nm _ _ Hn (nm_expand _ Hn)) as (H1 & H2 & H3); trivial.
Qed.
Lemma names_of'_nil l : Forall nm l -> (names_of' l = [] <-> l = []).
Proof.
  intros H. split; [|intros ->; reflexivity]. destruct l as [|n l]; [trivial|]. cbn. intros E.
  apply app_eq_nil in E as (E & _). apply Forall_cons_iff in H as (Hn & _).
  destruct (nm_expand_nm _ _ Hn (nm_expand _ Hn)) as (_ & K & _). congruence.
Qed.
Lemma normalize_nm l : Forall nm l -> normalize (mkF l false) = Ok (mkF (names_of' l) true).
Proof. intros H. destruct (mapR_nm _ H) as (ls & E & Ec). unfold normalize. cbn. rewrite E. cbn. now rewrite Ec. Qed.

(** ** Written codes *)
Lemma code_denotes c : wf_code c -> denotes (text_code c) (names_of' (code_names c)).
Proof.
  intros H. destruct c as [id|id i|id b|sep id a b].
  - cbn. rewrite app_nil_r. apply expand_denotes. apply nm_expand. now apply nm_iden.
  - assert (Hn : nm (id ++ String "." i)) by (exists (Item id i); auto).
    cbn. rewrite app_nil_r. apply expand_denotes. now apply nm_expand.
  - assert (Hat : Forall atomic (code_names (Stop id b))).
    { destruct H as (H & _). apply Forall_forall. intros x Hx. apply in_map_iff in Hx as (i & <- & _). apply indexed_atomic. now apply iden_no. }
    pose proof (denotes_nm _ (code_names_nm _ H)) as D.
    rewrite (denotes_all_functional _ _ _ D (denotes_all_self _ Hat)). destruct H as (H & Hb).
    apply den_slice with (start := 0%Z) (stop := int_value b) (step := 1%Z).
    + apply SF_stop; [split; now apply iden_no|now apply int_value_lit].
    + discriminate.
    + eapply (proj2 (py_range_lists _ _ _ _ (py_range_1 _ _))).
  - assert (Hat : Forall atomic (code_names (Range sep id a b))).
    { destruct H as (H & _). apply Forall_forall. intros x Hx. apply in_map_iff in Hx as (i & <- & _). apply indexed_atomic. now apply iden_no. }
    pose proof (denotes_nm _ (code_names_nm _ H)) as D.
    rewrite (denotes_all_functional _ _ _ D (denotes_all_self _ Hat)). destruct H as (H & Ha & Hb & Hs).
    apply den_slice with (start := int_value a) (stop := int_value b) (step := 1%Z).
    + cbn [text_code]. apply SF_start_stop; [split; now apply iden_no| | |now apply int_value_lit].
      * destruct Hs as [<- | [<- | []]]; auto.
      * right. split; [|now apply int_value_lit]. intros ->. discriminate.
    + discriminate.
    + eapply (proj2 (py_range_lists _ _ _ _ (py_range_1 _ _))).
Qed.
Lemma names_of'_app a b : names_of' (a ++ b) = (names_of' a ++ names_of' b)%list.
Proof. apply flat_map_app. Qed.
Definition gnames (g : group) : list string := flat_map code_names g.
Lemma gnames_nm g : Forall wf_code g -> Forall nm (gnames g).
Proof. intros H. apply Forall_flat_map. eapply Forall_impl; [|exact H]. apply code_names_nm. Qed.
Lemma group_denotes g : Forall wf_code g -> denotes_all (map text_code g) (names_of' (gnames g)).
Proof.
  induction 1 as [|c g Hc _ IH]; [exists []; split; [constructor|reflexivity]|]. cbn [map].
  change (gnames (c :: g)) with (code_names c ++ gnames g)%list. rewrite names_of'_app. destruct IH as (ls & H & ->). exists (names_of' (code_names c) :: ls). split; [|reflexivity].
  constructor; [now apply code_denotes|trivial].
Qed.

(** ** Streams *)
Definition st_of (p : string * group) : string * fused := (fst p, mkF (gnames (snd p)) false).
Lemma mapR_tr gs : mapR (tr_group false) gs = Ok (map (fun g => mkF (gnames g) false) gs).
Proof. apply mapR_Ok_map. Qed.
Lemma tr_item_false i :
  tr_item false i = Ok (map (fun p => mkSN (fst p) (mkF (gnames (snd p)) false)) (item_streams i)).
Proof.
  destruct i as [l [r|]|r]; unfold tr_item, tr_rhs; rewrite ?mapR_tr; cbn [bind item_streams]; f_equal.
  - generalize (rhs_groups r). intros gs. induction (lhs_sensors l) as [|a s IH]; [reflexivity|].
    cbn [flat_map list_prod]. rewrite map_app, IH, !map_map. reflexivity.
  - induction (lhs_sensors l) as [|a s IH]; [reflexivity|]. cbn in *. now rewrite IH.
  - cbn [list_prod]. now rewrite app_nil_r, !map_map.
Qed.
Lemma tr_items_false t :
  tr_items false t = Ok (map (fun p => mkSN (fst p) (mkF (gnames (snd p)) false)) (written t)).
Proof.
  unfold tr_items. replace (mapR (tr_item false) t) with
    (Ok (map (fun i => map (fun p => mkSN (fst p) (mkF (gnames (snd p)) false)) (item_streams i)) t)).
  - cbn [bind]. f_equal. unfold written. rewrite flat_map_concat_map, concat_map, map_map. reflexivity.
  - symmetry. induction t as [|i t IH]; [reflexivity|]. cbn [mapR map]. now rewrite tr_item_false, IH.
Qed.
Lemma parts_text t : wf t ->
  normalized_parts (text t) = Ok (map (fun p => mkSN (fst p) (mkF (gnames (snd p)) false)) (written t)).
Proof. intros H. unfold normalized_parts. rewrite parse_text_ok by trivial. apply tr_items_false. Qed.
Lemma streams_text x t : wf t -> stext x = text t -> streams x = Ok (map st_of (written t)).
Proof. intros H E. unfold streams. rewrite E, parts_text by trivial. cbn. now rewrite map_map. Qed.
Lemma streams_inv x sts : streams x = Ok sts -> exists t, wf t /\ stext x = text t /\ sts = map st_of (written t).
Proof.
  unfold streams, normalized_parts. intros H. apply bind_ok in H as (nodes & H & E).
  apply bind_ok in H as (t & Hp & H). apply parse_ok_text in Hp as (Ht & Hw). exists t. repeat split; trivial; try apply Hw.
  rewrite tr_items_false in H. injection H as <-. injection E as <-. now rewrite map_map.
Qed.

Definition okst (st : string * fused) : Prop :=
  is_iden (fst st) = true /\ isnorm (snd st) = false /\ Forall nm (codes (snd st)).
Lemma item_sensors i : wf_item i -> Forall (fun p => is_iden (fst p) = true /\ Forall wf_code (snd p)) (item_streams i).
Proof.
  assert (L : forall l, wf_lhs l -> Forall (fun s => is_iden s = true) (lhs_sensors l)).
  { intros [s|l]; cbn; intros H; [auto|apply H]. }
  assert (R : forall r, wf_rhs r -> Forall (fun g => Forall wf_code g) (rhs_groups r)).
  { intros [g|gs]; cbn; intros (Hn & H); [auto|]. eapply Forall_impl; [|exact H]. intros g (_ & Hg). trivial. }
  intros H. apply Forall_forall. intros [s g] Hp. cbn.
  destruct i as [l [r|]|r]; cbn [item_streams wf_item] in *; apply in_prod_iff in Hp as (Hs & Hg).
  - destruct H as (Hl & Hr). apply L in Hl. apply R in Hr. rewrite Forall_forall in Hl, Hr. auto.
  - apply L in H. rewrite Forall_forall in H. destruct Hg as [<- | []]. auto.
  - destruct H as (Hr & _). apply R in Hr. rewrite Forall_forall in Hr. destruct Hs as [<- | []]. auto.
Qed.
Lemma item_streams_ne i : wf_item i -> item_streams i <> [].
Proof.
  assert (L : forall l, wf_lhs l -> lhs_sensors l <> []) by (intros [s|l]; cbn; intros H; [discriminate|apply H]).
  assert (R : forall r, wf_rhs r -> rhs_groups r <> []) by (intros [g|gs]; cbn; intros H; [discriminate|apply H]).
  assert (P : forall A B (a : list A) (b : list B), a <> [] -> b <> [] -> list_prod a b <> []).
  { intros A B [|x a] [|y b]; cbn; congruence. }
  intros H. destruct i as [l [r|]|r]; cbn [item_streams wf_item] in *; apply P; try apply L; try apply R; try tauto; discriminate.
Qed.
Lemma written_wf t : wf t -> Forall (fun p => is_iden (fst p) = true /\ Forall wf_code (snd p)) (written t).
Proof. intros (_ & H). apply Forall_flat_map. eapply Forall_impl; [|exact H]. apply item_sensors. Qed.
Lemma written_ne t : wf t -> written t <> [].
Proof.
  intros (Hn & H). destruct t as [|i t]; [congruence|]. apply Forall_cons_iff in H as (Hi & _).
  apply item_streams_ne in Hi. cbn. destruct (item_streams i); [congruence|discriminate].
Qed.
Lemma streams_ok x sts : streams x = Ok sts -> some okst sts.
Proof.
  intros H. apply streams_inv in H as (t & Hw & _ & ->). apply some_map. split; [now apply written_ne|].
  eapply Forall_impl; [|apply written_wf, Hw]. intros [s g] (H1 & H2). split; [trivial|]. split; [reflexivity|]. now apply gnames_nm.
Qed.

(** ** Reading back written streams *)
Lemma stream_item st : okst st -> exists i, wf_item i /\ text_item i = stream_text st /\ map st_of (item_streams i) = [st].
Proof.
  destruct st as [s [l b]]. intros (H1 & H2 & H3). cbn in *. subst b. destruct l as [|n l].
  - exists (WithSensor (OneSensor s) None). cbn. auto.
  - assert (E : exists g, some wf_code g /\ map text_code g = n :: l /\ gnames g = n :: l).
    { revert H3. generalize (n :: l) (@nil_cons _ n l). intros k Hk H.
      assert (E : exists g, Forall wf_code g /\ map text_code g = k /\ gnames g = k).
      { clear Hk. induction H as [|x k (c & Hc & Ht & Hn) _ (g & IH1 & IH2 & IH3)]; [exists []; auto|].
        exists (c :: g). repeat split; [now constructor|cbn; congruence|]. unfold gnames. cbn. rewrite Hn. cbn. f_equal. exact IH3. }
      destruct E as (g & E1 & E2 & E3). exists g. repeat split; trivial. intros ->. cbn in *. congruence. }
    destruct E as (g & Hg & Ht & Hn). exists (WithSensor (OneSensor s) (Some (OneGroup g))).
    split; [cbn; auto|]. split; [|cbn [item_streams lhs_sensors rhs_groups list_prod map app]; unfold st_of; cbn [fst snd]; now rewrite Hn].
    cbn [text_item text_lhs text_rhs]. unfold text_group, stream_text. rewrite Ht, <- app_assoc_s. reflexivity.
Qed.
Lemma streams_tree sts : some okst sts ->
  exists t, wf t /\ text t = join "," (map stream_text sts) /\ map st_of (written t) = sts.
Proof.
  intros (Hn & H). assert (E : exists t, Forall wf_item t /\ map text_item t = map stream_text sts /\ map st_of (written t) = sts).
  { clear Hn. induction H as [|st sts Hs _ (t & E1 & E2 & E3)]; [exists []; cbn; auto|].
    destruct (stream_item _ Hs) as (i & I1 & I2 & I3). exists (i :: t). repeat split; [auto|cbn; congruence|].
    unfold written in *. cbn [flat_map]. rewrite map_app, I3, E3. reflexivity. }
  destruct E as (t & E1 & E2 & E3). exists t. repeat split; trivial; [|unfold text; now rewrite E2].
  intros ->. cbn in E3. congruence.
Qed.
Lemma streams_read x sts : some okst sts -> stext x = join "," (map stream_text sts) -> streams x = Ok sts.
Proof.
  intros H E. destruct (streams_tree _ H) as (t & Hw & Ht & Hs). rewrite (streams_text x t Hw) by congruence. now rewrite Hs.
Qed.
Lemma streams_join_ne sts : some okst sts -> join "," (map stream_text sts) <> "".
Proof.
  intros (Hn & H) E. destruct sts as [|st sts]; [congruence|]. apply join_empty in E as [E|E]; [discriminate|].
  injection E as E _. apply Forall_cons_iff in H as ((Hi & _) & _). apply iden_not_empty in Hi. unfold stream_text in E.
  destruct (fst st); [congruence|discriminate].
Qed.

(** ** normalize *)
Lemma normalize_eq s : s <> "" -> normalize_sensor_chan s = rmap (fun sts => join "," (map stream_text sts)) (streams (SText s)).
Proof.
  intros H. unfold normalize_sensor_chan, streams. apply String.eqb_neq in H. rewrite H. cbn [stext].
  destruct (normalized_parts s); cbn; [|reflexivity]. now rewrite map_map.
Qed.
Lemma normalize_streams s s' : normalize_sensor_chan s = Ok s' ->
  exists sts, some okst sts /\ s' = join "," (map stream_text sts) /\ streams (SText s') = Ok sts /\
              (s <> "" -> streams (SText s) = Ok sts) /\ (s = "" -> sts = [("*", mkF [] false)]).
Proof.
  intros H. destruct (String.eqb_spec s "") as [-> | Hn].
  - vm_compute in H. injection H as <-. exists [("*", mkF [] false)]. repeat split; try congruence; try reflexivity.
    apply Forall_cons; [|constructor]. repeat split; try reflexivity. constructor.
  - rewrite normalize_eq in H by trivial. apply rmap_ok in H as (sts & H & ->). exists sts.
    pose proof (streams_ok _ _ H) as Hok. repeat split; trivial; try apply Hok; [now apply streams_read|congruence].
Qed.
Lemma normalize_fixed s s' : normalize_sensor_chan s = Ok s' -> normalize_sensor_chan s' = Ok s'.
Proof.
  intros H. apply normalize_streams in H as (sts & Hok & -> & H & _).
  rewrite normalize_eq by now apply streams_join_ne. now rewrite H.
Qed.
Lemma stream_okst_is st : okst st -> stream_is st (fst st) (names_of' (codes (snd st))).
Proof. intros (H1 & H2 & H3). repeat split; trivial. now apply denotes_nm. Qed.
Lemma stream_is_names st s n : okst st -> stream_is st s n -> s = fst st /\ n = names_of' (codes (snd st)).
Proof.
  intros H (E & _ & D). split; [congruence|]. apply (denotes_all_functional _ _ _ D). apply denotes_nm. apply H.
Qed.
Lemma streams_product t : wf t -> exists sts, streams (SText (text t)) = Ok sts /\
  Forall2 (fun p st => exists names, denotes_all (map text_code (snd p)) names /\ stream_is st (fst p) names) (written t) sts.
Proof.
  intros H. exists (map st_of (written t)). split; [now apply streams_text|].
  pose proof (written_wf _ H) as W. induction W as [|p l (Hp & Hg) _ IH]; cbn; constructor; [|exact IH].
  exists (names_of' (gnames (snd p))). split; [now apply group_denotes|]. repeat split. cbn. apply denotes_nm. now apply gnames_nm.
Qed.

(** ** numel and late_fuse *)
Lemma numel_okst st : okst st -> numel (snd st) = Ok (Z.of_nat (List.length (names_of' (codes (snd st))))).
Proof. intros (H1 & H2 & H3). apply numel_names; [intros K; congruence|]. now apply denotes_nm. Qed.
Definition total (sts : list (string * fused)) : Z :=
  zsum (map (fun st => Z.of_nat (List.length (names_of' (codes (snd st))))) sts).
Lemma numel_streams sts : Forall okst sts ->
  (ns <- mapR (fun s => numel (snd s)) sts ;; Ok (zsum ns)) = Ok (total sts).
Proof.
  intros H. replace (mapR _ sts) with (Ok (map (fun st => Z.of_nat (List.length (names_of' (codes (snd st))))) sts)); [reflexivity|].
  symmetry. induction H as [|st sts Hs _ IH]; [reflexivity|]. cbn [mapR map]. now rewrite numel_okst, IH.
Qed.
Lemma snumel_text s sts : streams (SText s) = Ok sts -> snumel (SText s) = Ok (total sts).
Proof. intros H. unfold snumel. rewrite H. cbn [bind]. apply numel_streams. apply (streams_ok _ _ H). Qed.
Lemma total_app a b : total (a ++ b) = (total a + total b)%Z.
Proof. unfold total. rewrite map_app. unfold zsum. induction (map _ a) as [|x l IH]; cbn [app fold_right]; [reflexivity|]. rewrite IH. lia. Qed.

Lemma streams_text_ne x sts : streams x = Ok sts -> stext x <> "".
Proof. intros H E. unfold streams in H. rewrite E in H. vm_compute in H. discriminate. Qed.
Lemma text_app a b : a <> [] -> b <> [] -> text (a ++ b) = text a ++ "," ++ text b.
Proof.
  unfold text. intros Ha Hb. rewrite map_app. induction a as [|x a IH]; [congruence|].
  destruct a as [|y a].
  - cbn [map app]. apply join_cons. destruct b; [congruence|discriminate].
  - cbn [map app] in *. rewrite !(join_cons _ (text_item x)) by discriminate. rewrite IH by discriminate.
    now rewrite <- app_assoc_s.
Qed.
Lemma late_fuse_sstreams (l : list sspec) : forall stss,
  l <> [] -> Forall2 (fun x sts => streams x = Ok sts) l stss ->
  streams (slate_fuse l) = Ok (List.concat stss).
Proof.
  intros stss Hn H. unfold slate_fuse.
  replace (filter _ (map stext l)) with (map stext l).
  2: { symmetry. apply filter_id. intros x Hx. apply in_map_iff in Hx as (y & <- & Hy). apply negb_true_iff, String.eqb_neq.
       clear Hn. induction H as [|z sts l stss Hz _ IH]; [destruct Hy|]. destruct Hy as [<- | Hy]; [|auto]. eapply streams_text_ne. eassumption. }
  assert (E : exists t, wf t /\ join "," (map stext l) = text t /\ List.concat stss = map st_of (written t)).
  { induction H as [|z sts l stss Hz Hl IH]; [congruence|]. apply streams_inv in Hz as (t & Hw & Ht & ->).
    destruct Hl as [|z2 sts2 l stss Hz2 Hl].
    - exists t. cbn. rewrite app_nil_r. auto.
    - destruct IH as (t2 & Hw2 & Ht2 & Es2); [discriminate|]. exists (t ++ t2)%list. cbn [map List.concat].
      rewrite join_cons by discriminate. cbn [map] in Ht2. rewrite Ht2, Ht. rewrite text_app by (apply Hw || apply Hw2).
      split; [|split; [reflexivity|]].
      + split; [|apply Forall_app; split; [apply Hw|apply Hw2]]. intros E. apply app_eq_nil in E as (E & _). now apply Hw in E.
      + cbn [List.concat] in Es2. rewrite Es2. unfold written. now rewrite flat_map_app, map_app. }
  destruct E as (t & Hw & Ht & ->). now apply streams_text.
Qed.
Lemma late_fuse_drops_empty l : stext (slate_fuse (SText "" :: l)) = stext (slate_fuse l).
Proof. reflexivity. Qed.

(** ** matching_sensor *)
Lemma matching_ok x sensor sts : streams x = Ok sts -> sensor <> "*" ->
  exists r, matching_sensor x sensor = Ok r /\
    (filter (matches sensor) sts = [] -> r = SFused sensor (mkF [] false)) /\
    (filter (matches sensor) sts <> [] -> streams r = Ok (filter (matches sensor) sts)).
Proof.
  intros H Hn. unfold matching_sensor. apply String.eqb_neq in Hn. rewrite Hn, H. cbn [bind].
  fold (matches sensor). pose proof (streams_ok _ _ H) as (_ & Hok).
  assert (Hf : Forall okst (filter (matches sensor) sts)).
  { apply Forall_forall. intros st Hst. apply filter_In in Hst as (Hst & _). rewrite Forall_forall in Hok. auto. }
  change (fun s : string * fused => (fst s =? sensor)%string || (fst s =? "*")%string) with (matches sensor).
  destruct (filter (matches sensor) sts) as [|st rest]; [eexists; split; [reflexivity|]; split; [reflexivity|congruence]|].
  eexists. split; [reflexivity|]. split; [discriminate|]. intros _.
  assert (G : forall rest acc done, streams acc = Ok done -> Forall okst rest ->
            streams (fold_left (fun acc s => slate_fuse [acc; SFused (fst s) (snd s)]) rest acc) = Ok (done ++ rest)%list).
  { clear. induction rest as [|st rest IH]; cbn [fold_left]; intros acc done Hacc Hr; [now rewrite app_nil_r|].
    apply Forall_cons_iff in Hr as (Hs & Hr).
    rewrite (IH _ (done ++ [st])%list); trivial; [now rewrite <- app_assoc|].
    rewrite (late_fuse_sstreams _ [done; [st]]); [cbn; now rewrite ?app_nil_r|discriminate|].
    constructor; [trivial|]. constructor; [|constructor]. apply streams_read; [split; [discriminate|auto]|reflexivity]. }
  apply Forall_cons_iff in Hf as (Hs & Hr). apply (G rest _ [st]); trivial.
  apply streams_read; [split; [discriminate|auto]|reflexivity].
Qed.

(** ** split *)
Lemma split_parts st : okst st ->
  (c <- fsplit (snd st) ;; Ok (map (fun sub => fst st ++ String ":" (fspec sub)) (cstreams c)))
  = Ok (map (fun p => stream_text (fst p, mkF (snd p) false)) (singles (fst st, names_of' (codes (snd st))))).
Proof.
  intros (H1 & H2 & H3). destruct st as [s [l b]]. cbn [fst snd codes isnorm] in *. subst b. unfold fsplit. rewrite normalize_nm by trivial.
  cbn [bind codes]. unfold cstreams, ckeys. cbn [ctext]. f_equal. destruct (names_of'_nm _ H3) as (Hnm & _).
  unfold singles. cbn [snd fst]. destruct (names_of' l) as [|n ns] eqn:En; [reflexivity|].
  rewrite split_join; [|discriminate|eapply Forall_impl; [|exact Hnm]; intros; now apply nm_no].
  rewrite !map_map. apply map_ext_in. intros x Hx. unfold stream_text. cbn. f_equal. f_equal.
  rewrite Forall_forall in Hnm. specialize (Hnm _ Hx).
  unfold fparse, fspec. destruct (String.eqb_spec x "") as [-> | Hx'].
  - reflexivity.
  - cbn [codes]. rewrite split_no_sep by now apply nm_no. reflexivity.
Qed.
Lemma ssplit_ok x sts : streams x = Ok sts ->
  exists r, ssplit x = Ok r /\
    streams r = Ok (map (fun p => (fst p, mkF (snd p) false))
                        (flat_map (fun st => singles (fst st, names_of' (codes (snd st)))) sts)).
Proof.
  intros H. pose proof (streams_ok _ _ H) as (Hn & Hok). unfold ssplit. rewrite H. cbn [bind].
  replace (mapR _ sts) with (Ok (map (fun st => map (fun p => stream_text (fst p, mkF (snd p) false)) (singles (fst st, names_of' (codes (snd st))))) sts)).
  2: { symmetry. clear - Hok. induction Hok as [|st sts Hs _ IH]; [reflexivity|]. cbn [mapR map]. rewrite split_parts by trivial. now rewrite IH. }
  eexists. split; [reflexivity|]. apply streams_read.
  - apply some_map. split.
    + destruct sts as [|st sts]; [congruence|]. cbn [flat_map]. unfold singles at 1. cbn [snd fst]. now destruct (names_of' _).
    + apply Forall_flat_map. eapply Forall_impl; [|exact Hok]. intros st (H1 & H2 & H3). apply Forall_forall. intros p Hp.
      destruct (names_of'_nm _ H3) as (Hnm & _). unfold singles in Hp. cbn [snd fst] in Hp.
      destruct (names_of' (codes (snd st))) as [|n ns]; [destruct Hp as [<- | []]; repeat split; trivial; constructor|].
      apply in_map_iff in Hp as (y & <- & Hy). repeat split; trivial. cbn. constructor; [|constructor].
      rewrite Forall_forall in Hnm. auto.
  - cbn [stext]. f_equal. rewrite map_map. clear. induction sts as [|st sts IH]; [reflexivity|]. cbn [flat_map map List.concat].
    rewrite map_app, IH. reflexivity.
Qed.
