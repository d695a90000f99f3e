(* Property theorems for sensor-channel specs (C22-C26, C89).
   Vocabulary: SensorSpec.v.  Program: SensorModel.v.  Proofs: Sensor*Proofs.v. *)
From Verif Require Import SensorModel SensorSpec PyProofs ChanProofs ChanStreamProofs SensorProofs SensorStreamProofs SensorConciseProofs SensorEmptyProofs.
Local Open Scope string_scope.

(** * C22 *)

(* The accepted texts are exactly the written forms of well-formed trees, and a
   text has only one reading. *)
Theorem C22_grammar :
  (forall s t, parse s = Ok t <-> s = text t /\ wf t) /\
  (forall s, (exists sts, streams (SText s) = Ok sts) <-> exists t, s = text t /\ wf t).
Proof.
  split; [apply parse_iff|]. intros s. split.
  - intros (sts & H). apply streams_inv in H as (t & Hw & E & _). eauto.
  - intros (t & -> & Hw). exists (map st_of (written t)). now apply streams_text.
Qed.
Example C22_grammar_case :
  parse "(S1,S2):(a|b.3,c:2),rgb" =
  Ok [WithSensor (Sensors ["S1"; "S2"]) (Some (Groups [[Single "a"; Item "b" "3"]; [Stop "c" "2"]]));
      NoSensor (OneGroup [Single "rgb"])] /\
  parse "S:a,,b" = Err OtherError /\ parse "" = Err OtherError.
Proof. repeat split; vm_compute; reflexivity. Qed.
Print Assumptions C22_grammar.

(* Identifiers and numbers are spelled with the characters of the grammar. *)
Lemma in_existsb c l : existsb (Ascii.eqb c) l = true <-> In c l.
Proof.
  rewrite existsb_exists. split.
  - intros (x & H & E). apply Ascii.eqb_eq in E. now subst.
  - intros H. exists c. split; [exact H|apply Ascii.eqb_refl].
Qed.
Lemma iden_start_in c : iden_start c = existsb (Ascii.eqb c) (["_"; "*"]%char ++ letters).
Proof. destruct c as [[] [] [] [] [] [] [] []]; vm_compute; reflexivity. Qed.
Lemma iden_rest_in c : iden_rest c = existsb (Ascii.eqb c) (["_"; "*"; " "; "-"]%char ++ letters ++ digits).
Proof. destruct c as [[] [] [] [] [] [] [] []]; vm_compute; reflexivity. Qed.
Lemma dec_digit_in c : dec_digit c = existsb (Ascii.eqb c) digits.
Proof. destruct c as [[] [] [] [] [] [] [] []]; vm_compute; reflexivity. Qed.
Lemma all_chars_in p l s : (forall c, p c = existsb (Ascii.eqb c) l) ->
  all_chars p s = true <-> forall d, In d (list_ascii_of_string s) -> In d l.
Proof.
  intros Hp. induction s as [|c s IH]; cbn [all_chars list_ascii_of_string]; [split; [intros _ d []|reflexivity]|].
  rewrite Bool.andb_true_iff, IH, Hp, in_existsb. split.
  - intros [H1 H2] d [<- | H]; auto.
  - intros H. split; [apply H; now left|intros d Hd; apply H; now right].
Qed.

Theorem C22_terminals : forall s, (is_iden s = true <-> identifier s) /\ (is_int s = true <-> number s).
Proof.
  intros s. split.
  - unfold identifier. destruct s as [|c r]; cbn [is_iden].
    + split; [discriminate|]. intros (c & r & E & _). discriminate.
    + rewrite Bool.andb_true_iff, iden_start_in, in_existsb, (all_chars_in _ _ _ iden_rest_in). split.
      * intros [H1 H2]. exists c, r. auto.
      * intros (c' & r' & E & H1 & H2). injection E as <- <-. auto.
  - unfold number. destruct s as [|c r]; cbn [is_int].
    + split; [discriminate|]. intros [H _]. congruence.
    + rewrite (all_chars_in _ _ _ dec_digit_in). split; [intros H; split; [discriminate|exact H]|intros [_ H]; exact H].
Qed.
Example C22_terminals_case : identifier "Sentinel-2 L1C_*" /\ number "012" /\ ~ identifier "2S" /\ ~ number "1a".
Proof.
  repeat split; try (apply C22_terminals; reflexivity); try discriminate;
  intros H; apply C22_terminals in H; discriminate.
Qed.
Print Assumptions C22_terminals.

(* The streams are the product of the sensors and channel groups written, and
   each stands for the channel names its codes denote. *)
Theorem C22_product : forall t, wf t ->
  exists sts, streams (SText (text t)) = Ok sts /\
    Forall2 (fun p st => exists names, denotes_all (map text_code (snd p)) names /\ stream_is st (fst p) names)
            (written t) sts.
Proof. exact streams_product. Qed.
Example C22_product_case :
  streams (SText "(S1,S2):(a|b.3,c:2),rgb") =
  Ok [("S1", mkF ["a"; "b.3"] false); ("S1", mkF ["c.0"; "c.1"] false);
      ("S2", mkF ["a"; "b.3"] false); ("S2", mkF ["c.0"; "c.1"] false); ("*", mkF ["rgb"] false)].
Proof. vm_compute. reflexivity. Qed.
Print Assumptions C22_product.

(* normalize writes one sensor:channels text per stream, with the same streams,
   and is a fixed point.  The empty spec is read as "*:". *)
Theorem C22_normalize : forall s s', normalize_sensor_chan s = Ok s' ->
  normalize_sensor_chan s' = Ok s' /\
  exists sts, s' = join "," (map stream_text sts) /\ sts <> [] /\
    streams (SText s') = Ok sts /\
    Forall (fun st => is_iden (fst st) = true) sts /\
    (s <> "" -> streams (SText s) = Ok sts) /\ (s = "" -> sts = [("*", mkF [] false)]).
Proof.
  intros s s' H. split; [eapply normalize_fixed; eassumption|].
  apply normalize_streams in H as (sts & (Hn & Hok) & H). exists sts. split; [apply H|]. split; [trivial|].
  split; [apply H|]. split; [|apply H]. eapply Forall_impl; [|exact Hok]. intros st K. apply K.
Qed.
(* it fails only where the text is not accepted *)
Theorem C22_normalize_total : forall s sts, streams (SText s) = Ok sts -> exists s', normalize_sensor_chan s = Ok s'.
Proof.
  intros s sts H. rewrite normalize_eq by (apply (streams_text_ne _ _ H)). rewrite H. cbn. eauto.
Qed.
Example C22_normalize_case :
  normalize_sensor_chan "(S1,S2):(a|b.3,c:2),rgb,T:" =
  Ok "S1:a|b.3,S1:c.0|c.1,S2:a|b.3,S2:c.0|c.1,*:rgb,T:" /\
  normalize_sensor_chan "" = Ok "*:".
Proof. split; vm_compute; reflexivity. Qed.
Print Assumptions C22_normalize.
Print Assumptions C22_normalize_total.

(** * C23 *)
Theorem C23_concise_keeps_streams : forall s sts,
  streams (SText s) = Ok sts ->
  (forall st, In st sts -> codes (snd st) <> []) ->
  (forall sensor names, has_stream sts sensor names -> Forall canonical names) ->
  exists s' sts', concise_sensor_chan s = Ok s' /\ streams (SText s') = Ok sts' /\
    forall sensor names, has_stream sts sensor names <-> has_stream sts' sensor names.
Proof. intros s sts H Hf Hc. apply (concise_keeps s sts H); [|trivial]. now apply Forall_forall. Qed.
Example C23_case :
  concise_sensor_chan "S1:a.0|a.1|b,S2:b,S2:a.0|a.1|b,S1:b,rgb" = Ok "(S1,S2):(a:2|b,b),*:r|g|b" /\
  (forall sensor names,
     has_stream [("S", mkF ["a.0"; "rgb"] false)] sensor names -> Forall canonical names).
Proof.
  split; [vm_compute; reflexivity|]. intros sensor names (st & [<- | []] & (_ & _ & D)).
  apply (normalize_denotes (mkF ["a.0"; "rgb"] false)) in D; [|intros K; discriminate]. vm_compute in D. injection D as <-.
  apply Forall_cons; [right; exists "a", 0%Z; split; reflexivity|].
  repeat (apply Forall_cons; [left; reflexivity|]). constructor.
Qed.
Print Assumptions C23_concise_keeps_streams.

(* an index with a leading zero is rewritten *)
Theorem C23_leading_zero_refuted :
  ~ (forall s sts, streams (SText s) = Ok sts -> (forall st, In st sts -> codes (snd st) <> []) ->
     exists s' sts', concise_sensor_chan s = Ok s' /\ streams (SText s') = Ok sts' /\
       forall sensor names, has_stream sts sensor names <-> has_stream sts' sensor names).
Proof.
  intros H. destruct (H "S:a.01" [("S", mkF ["a.01"] false)]) as (s' & sts' & E1 & E2 & E3).
  - vm_compute. reflexivity.
  - intros st [<- | []]. discriminate.
  - vm_compute in E1. injection E1 as <-. vm_compute in E2. injection E2 as <-.
    assert (A : forall c, nm c -> alias_lut c = None -> has_stream [("S", mkF [c] false)] "S" [c]).
    { intros c Hc Ha. exists ("S", mkF [c] false). split; [now left|]. repeat split. cbn. exists [[c]]. split; [|reflexivity].
      constructor; [|constructor]. apply expand_denotes. rewrite nm_expand by trivial. now rewrite Ha. }
    assert (K : has_stream [("S", mkF ["a.01"] false)] "S" ["a.01"]).
    { apply A; [|reflexivity]. exists (Item "a" "01"). repeat split. }
    apply E3 in K as (st & [<- | []] & K).
    assert (N : okst ("S", mkF ["a.1"] false)).
    { repeat split. constructor; [|constructor]. exists (Item "a" "1"). repeat split. }
    apply (stream_is_names _ _ _ N) in K as (_ & K). vm_compute in K. discriminate.
Qed.
Print Assumptions C23_leading_zero_refuted.

(** * C24 *)
(* False as stated: an empty channel part beside another one of the same sensor. *)
Theorem C24_parseable_refuted :
  ~ (forall s sts, streams (SText s) = Ok sts ->
       exists s' sts', concise_sensor_chan s = Ok s' /\ streams (SText s') = Ok sts').
Proof.
  intros H. destruct (H "*:a,*:" [("*", mkF ["a"] false); ("*", mkF [] false)]) as (s' & sts' & E1 & E2).
  - vm_compute. reflexivity.
  - vm_compute in E1. injection E1 as <-. vm_compute in E2. discriminate.
Qed.
Print Assumptions C24_parseable_refuted.
(* Proved when every stream has at least one channel.  Missing: specs where an
   empty stream has no other stream with the same sensors. *)
Theorem C24_parseable_partial : forall s sts,
  streams (SText s) = Ok sts -> (forall st, In st sts -> codes (snd st) <> []) ->
  exists s' sts', concise_sensor_chan s = Ok s' /\ streams (SText s') = Ok sts'.
Proof. intros s sts H Hf. apply (concise_parseable s sts H). now apply Forall_forall. Qed.
Example C24_case :
  concise_sensor_chan "*:a,*:" = Ok "*:(a,)" /\ concise_sensor_chan "B:x.01,A:y,B:y" = Ok "(A,B):y,B:x.1".
Proof. split; vm_compute; reflexivity. Qed.
Print Assumptions C24_parseable_partial.

(* Exactly when: the text cannot be parsed if and only if the streams without
   channels have the same sensors as some group of channels. *)
Theorem C24_parseable_iff_partial : forall s sts, streams (SText s) = Ok sts ->
  ((exists s' sts', concise_sensor_chan s = Ok s' /\ streams (SText s') = Ok sts') <-> ~ clash sts).
Proof. exact parseable_iff. Qed.
Print Assumptions C24_parseable_iff_partial.

(* and then it has the same streams, the empty ones included *)
Theorem C24_same_streams_partial : forall s sts, streams (SText s) = Ok sts -> ~ clash sts ->
  (forall sensor names, has_stream sts sensor names -> Forall canonical names) ->
  exists s' sts', concise_sensor_chan s = Ok s' /\ streams (SText s') = Ok sts' /\
    forall sensor names, has_stream sts sensor names <-> has_stream sts' sensor names.
Proof. exact keeps_no_clash. Qed.
Print Assumptions C24_same_streams_partial.

(* a clash, and empty streams without one *)
Example C24_clash_case :
  (exists sts, streams (SText "A:a,B:a,B:,A:") = Ok sts /\ clash sts) /\
  (exists sts, streams (SText "A:a,B:a,A:") = Ok sts /\ ~ clash sts /\ concise_sensor_chan "A:a,B:a,A:" = Ok "(A,B):a,A:").
Proof.
  split; eexists; (split; [vm_compute; reflexivity|]).
  - split; [discriminate|]. exists ("A", mkF ["a"] false), (mkF ["a"] false).
    split; [now left|]. split; [discriminate|]. split; [reflexivity|]. vm_compute. split; [tauto|split; discriminate].
  - split; [|reflexivity]. intros (_ & st & f & Hin & Hc & E & H & _). cbn in Hin.
    destruct Hin as [<- | [<- | [<- | []]]]; cbn in Hc; try congruence; vm_compute in E; injection E as <-;
      vm_compute in H; destruct (proj2 (H "B")) as [K | []]; (tauto || discriminate).
Qed.

(** * C25 *)
Theorem C25_matching_sensor : forall x sensor sts, streams x = Ok sts ->
  (sensor = "*" -> matching_sensor x sensor = Ok x) /\
  (sensor <> "*" -> exists r, matching_sensor x sensor = Ok r /\
     (filter (matches sensor) sts = [] -> r = SFused sensor (mkF [] false) /\ snumel r = Ok 0%Z) /\
     (filter (matches sensor) sts <> [] -> streams r = Ok (filter (matches sensor) sts))).
Proof.
  intros x sensor sts H. split.
  - intros ->. reflexivity.
  - intros Hn. destruct (matching_ok x sensor sts H Hn) as (r & E & H1 & H2). exists r. split; [trivial|]. split; [|trivial].
    intros K. rewrite (H1 K). auto.
Qed.
Example C25_case :
  matching_sensor (SText "S1:a|b,(S2,S1):c,d") "S1" = Ok (SText "S1:a|b,S1:c,*:d") /\
  matching_sensor (SText "S1:a|b") "S2" = Ok (SFused "S2" (mkF [] false)) /\
  filter (matches "S1") [("S1", mkF ["a"] false); ("S2", mkF ["c"] false); ("*", mkF ["d"] false)]
  = [("S1", mkF ["a"] false); ("*", mkF ["d"] false)].
Proof. repeat split; vm_compute; reflexivity. Qed.
Print Assumptions C25_matching_sensor.

(** * C26 *)
Theorem C26_numel : forall s sts, streams (SText s) = Ok sts ->
  exists named, Forall2 (fun st p => stream_is st (fst p) (snd p)) sts named /\
    snumel (SText s) = Ok (zsum (map (fun p => Z.of_nat (List.length (snd p))) named)) /\
    Forall2 (fun st p => snumel (SFused (fst st) (snd st)) = Ok (Z.of_nat (List.length (snd p)))) sts named.
Proof.
  intros s sts H. pose proof (streams_ok _ _ H) as (_ & Hok).
  exists (map (fun st => (fst st, names_of' (codes (snd st)))) sts). split; [|split].
  - clear H. induction Hok as [|st sts Hs _ IH]; cbn [map]; constructor; [now apply stream_okst_is|trivial].
  - rewrite (snumel_text _ _ H). unfold total. now rewrite map_map.
  - clear H. induction Hok as [|st sts Hs _ IH]; cbn [map]; constructor; [now apply numel_okst|trivial].
Qed.
Theorem C26_late_fuse : forall l stss, l <> [] -> Forall2 (fun x sts => streams x = Ok sts) l stss ->
  streams (slate_fuse l) = Ok (List.concat stss).
Proof. intros l stss. apply late_fuse_sstreams. Qed.
Theorem C26_numel_additive : forall l ns, l <> [] -> Forall2 (fun s n => snumel (SText s) = Ok n) l ns ->
  snumel (slate_fuse (map SText l)) = Ok (zsum ns).
Proof.
  intros l ns Hn H.
  assert (E : exists stss, Forall2 (fun x sts => streams x = Ok sts) (map SText l) stss /\ ns = map total stss).
  { clear Hn. induction H as [|s n l ns Hs _ (stss & E1 & E2)]; [exists []; split; [constructor|reflexivity]|].
    pose proof Hs as Hs2. unfold snumel in Hs2. apply bind_ok in Hs2 as (sts & K & _).
    rewrite (snumel_text _ _ K) in Hs. injection Hs as <-. exists (sts :: stss). split; [constructor; trivial|]. cbn. congruence. }
  destruct E as (stss & E & ->).
  assert (K : streams (slate_fuse (map SText l)) = Ok (List.concat stss)).
  { apply late_fuse_sstreams; [|trivial]. now destruct l. }
  unfold slate_fuse in *. rewrite (snumel_text _ _ K). f_equal. clear.
  induction stss as [|a l IH]; [reflexivity|]. cbn [List.concat map]. rewrite total_app, IH. reflexivity.
Qed.
Theorem C26_split : forall x sts, streams x = Ok sts ->
  exists r sts' named, ssplit x = Ok r /\ streams r = Ok sts' /\
    Forall2 (fun st p => stream_is st (fst p) (snd p)) sts named /\
    Forall2 (fun st p => stream_is st (fst p) (snd p)) sts' (flat_map singles named).
Proof.
  intros x sts H. pose proof (streams_ok _ _ H) as (_ & Hok). destruct (ssplit_ok _ _ H) as (r & E1 & E2).
  exists r. eexists. exists (map (fun st => (fst st, names_of' (codes (snd st)))) sts).
  split; [trivial|]. split; [exact E2|]. split.
  - clear - Hok. induction Hok as [|st sts Hs _ IH]; cbn [map]; constructor; [now apply stream_okst_is|trivial].
  - clear - Hok. induction Hok as [|st sts (H1 & H2 & H3) _ IH]; cbn [map flat_map]; [constructor|].
    rewrite map_app. apply Forall2_app; [|exact IH]. destruct (names_of'_nm _ H3) as (_ & Hat).
    unfold singles. cbn [snd fst]. destruct (names_of' (codes (snd st))) as [|n ns].
    + constructor; [|constructor]. repeat split. apply denotes_nm. constructor.
    + induction Hat as [|a l Ha _ IHa]; cbn [map]; constructor; [|exact IHa]. repeat split. cbn. apply denotes_all_self. auto.
Qed.
Example C26_case :
  snumel (SText "(S1,S2):(a|rgb,c:2),T:") = Ok 12%Z /\
  slate_fuse [SText "S1:a"; SText ""; SFused "S2" (mkF ["rgb"] false)] = SText "S1:a,S2:rgb" /\
  ssplit (SText "(S1,S2):a|rgb,T:") = Ok (SText "S1:a,S1:r,S1:g,S1:b,S2:a,S2:r,S2:g,S2:b,T:").
Proof. repeat split; vm_compute; reflexivity. Qed.
Print Assumptions C26_numel.
Print Assumptions C26_late_fuse.
Print Assumptions C26_numel_additive.
Print Assumptions C26_split.

(** * C89 *)
(* normalize reads the empty spec as "*:", the other operations reject it *)
Theorem C89_empty_spec_refuted :
  normalize_sensor_chan "" = Ok "*:" /\ snumel (SText "*:") = Ok 0%Z /\
  ~ (exists n, snumel (SText "") = Ok n) /\ ~ (exists sts, streams (SText "") = Ok sts) /\
  ~ (exists s, concise_sensor_chan "" = Ok s) /\ ~ (exists r, ssplit (SText "") = Ok r).
Proof. repeat split; try (vm_compute; reflexivity); intros (r & H); vm_compute in H; discriminate. Qed.
(* late_fuse does treat it as nothing *)
Theorem C89_late_fuse_unit_partial : forall l1 l2,
  slate_fuse (l1 ++ SText "" :: l2) = slate_fuse (l1 ++ l2).
Proof. intros l1 l2. unfold slate_fuse. rewrite !map_app, !filter_app. reflexivity. Qed.
Example C89_case : slate_fuse [SText "S1:a"; SText ""; SText "b"] = SText "S1:a,b".
Proof. reflexivity. Qed.
Print Assumptions C89_empty_spec_refuted.
Print Assumptions C89_late_fuse_unit_partial.

(** * C90 *)
Theorem C90_chans : forall s sts, streams (SText s) = Ok sts ->
  (forall a b, In a sts -> In b sts -> fst a = fst b) ->
  exists b, schans (SText s) = Ok (Some b) /\
    read_streams (btext b) = filter (fun l => negb (Nat.eqb (List.length l) 0)) (map (fun st => codes (snd st)) sts).
Proof.
  intros s sts H Hs. pose proof (streams_ok _ _ H) as (Hn & Hok). unfold schans. rewrite H. cbn [bind].
  destruct sts as [|st sts]; [congruence|]. set (l := st :: sts) in *.
  replace (forallb _ l) with true.
  2: { symmetry. apply forallb_forall. intros x Hx. apply String.eqb_eq. apply Hs; [trivial|now left]. }
  destruct (spec_sum (map (fun t => BF (snd t)) l)) as [b|] eqn:E; [|discriminate].
  exists b. split; [reflexivity|]. rewrite (spec_sum_streams _ _ E), map_map. clear - Hok.
  induction Hok as [|x l (_ & _ & Hx) _ IH]; [reflexivity|]. cbn [map List.concat].
  rewrite IH. cbn [filter btext]. destruct x as [sensor [cs b]]. cbn [snd codes] in *. unfold fspec. cbn [codes].
  destruct cs as [|c cs]; [reflexivity|]. cbn [List.length Nat.eqb negb app].
  unfold read_streams. assert (C : Forall (fun n => contains "|" n = false /\ contains "," n = false /\ n <> "") (c :: cs)).
  { eapply Forall_impl; [|exact Hx]. intros n K. split; [now apply nm_no|]. split; [now apply nm_no|].
    destruct (nm_cases _ K) as [K2 | (id & i & K2 & _ & ->)]; [now apply iden_not_empty|]. destruct id; discriminate. }
  rewrite split_no_sep.
  2: { rewrite contains_join by discriminate. apply not_true_is_false. intros K. apply existsb_exists in K as (y & Hy & K).
       rewrite Forall_forall in C. destruct (C _ Hy) as (_ & K2 & _). congruence. }
  cbn [filter]. assert (N : join "|" (c :: cs) <> "").
  { intros K. apply join_empty in K as [K | K]; [discriminate|]. injection K as -> _. apply Forall_cons_iff in C as (C & _). tauto. }
  apply String.eqb_neq in N. rewrite N. cbn [negb map app]. rewrite split_join; [reflexivity|discriminate|].
  eapply Forall_impl; [|exact C]. intros n K. apply K.
Qed.
Theorem C90_mixed_sensors : forall s sts a b, streams (SText s) = Ok sts -> In a sts -> In b sts -> fst a <> fst b ->
  exists e, schans (SText s) = Err e.
Proof.
  intros s sts a b H Ha Hb Hab. unfold schans. rewrite H. cbn [bind]. destruct sts as [|st sts]; [destruct Ha|]. set (l := st :: sts) in *.
  destruct (forallb _ l) eqn:E; [|eauto]. exfalso. rewrite forallb_forall in E. apply Hab.
  pose proof (E _ Ha) as E1. pose proof (E _ Hb) as E2. apply String.eqb_eq in E1, E2. congruence.
Qed.
Example C90_case :
  rmap (option_map btext) (schans (SText "S:(a|b,c:2),S:,S:rgb")) = Ok (Some "a|b,c.0|c.1,rgb") /\
  schans (SText "S:a,T:b") = Err OtherError.
Proof. split; vm_compute; reflexivity. Qed.
Print Assumptions C90_chans.
Print Assumptions C90_mixed_sensors.
