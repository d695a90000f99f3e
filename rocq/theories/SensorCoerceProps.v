(* C108-C111: FusedSensorChanSpec and conversions between the kinds of specs. *)
From Verif Require Import PyProofs ChanProofs ChanConciseProofs ChanStreamProofs SensorProofs SensorStreamProofs SensorConciseProofs SensorCoerceProofs.
Local Open Scope string_scope.

(** * C108: a fused sensor spec is exactly one stream *)
Theorem C108_single_stream : forall s sts, streams (SText s) = Ok sts ->
  (forall st, sts = [st] -> exists x n, sfused_from_spec s = Ok x /\ streams x = Ok [st] /\
     schans x = Ok (Some (BF (snd st))) /\ snumel x = Ok n /\ snumel (SText s) = Ok n /\
     sfused_normalize x = Ok x /\ fused_sensor_coerce (SObj x) = Ok x /\
     fused_sensor_coerce (SData (DStr s)) = Ok x) /\
  (List.length sts <> 1%nat -> sfused_from_spec s = Err ValueError /\
     fused_sensor_coerce (SData (DStr s)) = Err ValueError).
Proof.
  intros s sts H. cbn [fused_sensor_coerce]. rewrite (sfused_iff _ _ H). split.
  - intros st ->. pose proof (streams_ok _ _ H) as (_ & Hok). apply Forall_cons_iff in Hok as (Hok & _). destruct st as [a c].
    cbn [fst snd]. eexists _, _. split; [reflexivity|]. split; [now apply sfused_streams|]. split; [reflexivity|].
    split; [exact (numel_okst _ Hok)|]. split; [|split; [now apply sfused_normalize_same|split; reflexivity]].
    rewrite (snumel_text _ _ H). unfold total. cbn [map snd]. f_equal. cbn. lia.
  - destruct sts as [|a [|b l]]; cbn; intros K; [split; reflexivity|congruence|split; reflexivity].
Qed.
Print Assumptions C108_single_stream.
(* a text that is no sensorchan spec is rejected with the parser's error *)
Theorem C108_unparseable : forall s e, streams (SText s) = Err e -> sfused_from_spec s = Err e.
Proof. exact sfused_err. Qed.
Print Assumptions C108_unparseable.
Example C108_case :
  streams (SText "S:u.0:3|rgb") = Ok [("S", mkF ["u.0"; "u.1"; "u.2"; "rgb"] false)] /\
  rmap stext (sfused_from_spec "S:u.0:3|rgb") = Ok "S:u.0|u.1|u.2|rgb" /\
  sfused_from_spec "S:a,T:b" = Err ValueError /\ sfused_from_spec "S:a|" = Err OtherError.
Proof. repeat split; vm_compute; reflexivity. Qed.

(** * C109: concise() of a fused sensor spec *)
(* It does not abbreviate: the constructor writes the slice out again, while the
   same text as a SensorChanSpec is shortened. *)
Theorem C109_abbreviates_refuted : exists s x, sfused_from_spec s = Ok x /\
  concise_sensor_chan (stext x) = Ok "S:a:3" /\ rmap stext (sfused_concise x) = Ok "S:a.0|a.1|a.2".
Proof. exists "S:a.0|a.1|a.2", (SFused "S" (mkF ["a.0"; "a.1"; "a.2"] false)). repeat split; vm_compute; reflexivity. Qed.
Print Assumptions C109_abbreviates_refuted.
(* It never fails and keeps the sensor and the channels. *)
Theorem C109_keeps_stream_partial : forall s x, sfused_from_spec s = Ok x ->
  exists st x' st', streams x = Ok [st] /\ sfused_concise x = Ok x' /\ streams x' = Ok [st'] /\
    forall sensor names, stream_is st sensor names -> Forall canonical names -> stream_is st' sensor names.
Proof.
  intros s x H. apply sfused_inv in H as ([a c] & _ & -> & Hok). cbn [fst snd].
  destruct (sfused_concise_ok a c Hok) as (c' & E & Hok' & Hd). exists (a, c), (SFused a c'), (a, c').
  split; [now apply sfused_streams|]. split; [exact E|]. split; [now apply sfused_streams|].
  intros sensor names (H1 & H2 & H3) Hc. split; [exact H1|]. split; [apply Hok'|]. now apply Hd.
Qed.
Print Assumptions C109_keeps_stream_partial.
Example C109_case : exists x, sfused_from_spec "S:rgb|a.1:4" = Ok x /\
  rmap stext (sfused_concise x) = Ok "S:r|g|b|a.1|a.2|a.3".
Proof. exists (SFused "S" (mkF ["rgb"; "a.1"; "a.2"; "a.3"] false)). split; vm_compute; reflexivity. Qed.

(** * C110: SensorChanSpec.coerce of channels *)
(* The streams of the channel spec [c], each a list of names. *)
Definition channel_streams (c : cspec) (namess : list (list string)) : Prop :=
  Forall2 (fun f names => denotes_all (codes f) names) (cstreams c) namess.

Lemma channel_streams_ok c namess : mapR (fun f => rmap codes (normalize f)) (cstreams c) = Ok namess -> channel_streams c namess.
Proof.
  unfold channel_streams. assert (Hf : Forall (fun f => isnorm f = false) (cstreams c)).
  { unfold cstreams. apply Forall_map. apply Forall_forall. intros x _. unfold fparse. destruct (String.eqb x ""); reflexivity. }
  revert namess Hf. induction (cstreams c) as [|f l IH]; intros names Hf H; cbn [mapR] in H; [injection H as <-; constructor|].
  apply Forall_cons_iff in Hf as (Hf & Hl). apply bind_ok in H as (n & Hn & H). apply bind_ok in H as (r & Hr & [= <-]).
  constructor; [|now apply IH]. apply rmap_ok in Hn as (nf & Hn & ->). unfold normalize in Hn. rewrite Hf in Hn.
  apply bind_ok in Hn as (ls & Hls & [= <-]). cbn [codes]. exists ls. split; [|reflexivity]. apply mapR_Forall2 in Hls.
  eapply Forall2_imp; [|exact Hls]. intros x y. apply expand_denotes.
Qed.

(* Not every valid channel spec survives: a name may start with a digit, a slice may
   have a step, there may be no channel at all; and parentheses change the names. *)
Theorem C110_coerce_refuted :
  (forall s, In s ["8a"; "a:0:6:2"; "x.y"; ""] -> exists namess, channel_streams (mkC s None) namess /\
     exists x e, sensor_coerce (SData (DChan (mkC s None))) = Ok x /\ streams x = Err e) /\
  (channel_streams (mkC "(a|c,b)" None) [["(a"; "c"]; ["b)"]] /\
   exists x sts, sensor_coerce (SData (DChan (mkC "(a|c,b)" None))) = Ok x /\ streams x = Ok sts /\
     has_stream sts "*" ["a"; "c"]).
Proof.
  split; [|split].
  - intros s [<- | [<- | [<- | [<- | []]]]].
    + exists [["8a"]]. split; [apply channel_streams_ok; vm_compute; reflexivity|]. exists (SText "8a"), OtherError. split; [reflexivity|vm_compute; reflexivity].
    + exists [["a.0"; "a.2"; "a.4"]]. split; [apply channel_streams_ok; vm_compute; reflexivity|]. exists (SText "a:0:6:2"), OtherError. split; [reflexivity|vm_compute; reflexivity].
    + exists [["x.y"]]. split; [apply channel_streams_ok; vm_compute; reflexivity|]. exists (SText "x.y"), OtherError. split; [reflexivity|vm_compute; reflexivity].
    + exists [[]]. split; [apply channel_streams_ok; vm_compute; reflexivity|]. exists (SText ""), OtherError. split; [reflexivity|vm_compute; reflexivity].
  - apply channel_streams_ok; vm_compute; reflexivity.
  - exists (SText "(a|c,b)"), [("*", mkF ["a"; "c"] false); ("*", mkF ["b"] false)]. split; [reflexivity|]. split; [vm_compute; reflexivity|].
    exists ("*", mkF ["a"; "c"] false). split; [left; reflexivity|]. split; [reflexivity|]. split; [reflexivity|].
    exists [["a"]; ["c"]]. split; [|reflexivity]. constructor; [|constructor; [|constructor]]; apply expand_denotes; reflexivity.
Qed.
Print Assumptions C110_coerce_refuted.

(* Without parentheses a valid channel spec is never read differently: if the coerced
   spec has streams they are the streams of the channel spec, in order, for sensor "*". *)
Theorem C110_same_streams_partial : forall c namess, contains "(" (ctext c) = false -> contains ")" (ctext c) = false ->
  channel_streams c namess ->
  exists x, sensor_coerce (SData (DChan c)) = Ok x /\
    forall sts, streams x = Ok sts -> Forall2 (fun st names => stream_is st "*" names) sts namess.
Proof.
  intros c namess H1 H2 Hd. eexists. split; [reflexivity|]. intros sts Hs. eapply coerced_streams; try eassumption.
  assert (Hne : Forall (fun p => p <> "") (split "," (ctext c))).
  { unfold streams, normalized_parts, parse in Hs. cbn [stext] in Hs. rewrite split_top_plain in Hs by trivial.
    apply bind_ok in Hs as (nodes & Hs & _). apply bind_ok in Hs as (t & Ht & _). apply mapR_Forall2 in Ht.
    clear -Ht. induction Ht as [|p i ps t Hi _ IH]; constructor; [|exact IH]. intros ->. discriminate. }
  unfold channel_streams, cstreams, ckeys in Hd. revert namess Hd.
  induction Hne as [|p ps Hp _ IH]; intros namess Hd; inversion Hd as [|? ? ? ? Hx Hr]; subst; [constructor|].
  constructor; [|now apply IH]. unfold fparse in Hx. destruct (String.eqb_spec p ""); [contradiction|exact Hx].
Qed.
Print Assumptions C110_same_streams_partial.

(* A fused channel spec becomes one stream of sensor "*". *)
Theorem C110_fused_partial : forall f names,
  Forall (fun x => forall d, In d ["("; ")"; ","; "|"]%char -> contains d x = false) (codes f) ->
  denotes_all (codes f) names ->
  exists x, sensor_coerce (SData (DFused f)) = Ok x /\
    forall sts, streams x = Ok sts -> exists st, sts = [st] /\ stream_is st "*" names.
Proof.
  intros f names Hf Hd. eexists. split; [reflexivity|]. intros sts Hs.
  assert (Hn : codes f <> []). { intros E. unfold fspec in Hs. rewrite E in Hs. vm_compute in Hs. discriminate. }
  assert (C : forall d, d <> "|"%char -> In d ["("; ")"; ","; "|"]%char -> contains d (fspec f) = false).
  { intros d Hnd Hin. unfold fspec. rewrite contains_join by trivial. apply not_true_is_false. intros E.
    apply existsb_exists in E as (x & Hx & E). rewrite Forall_forall in Hf. rewrite (Hf x Hx d Hin) in E. discriminate. }
  assert (G : Forall2 (fun st n => stream_is st "*" n) sts [names]).
  { eapply coerced_streams; [| | |exact Hs]; [apply C; [discriminate|cbn; tauto]|apply C; [discriminate|cbn; tauto]|].
    rewrite split_no_sep by (apply C; [discriminate|cbn; tauto]). constructor; [|constructor].
    unfold fspec. rewrite split_join; [exact Hd|exact Hn|].
    eapply Forall_impl; [|exact Hf]. intros x Hx. apply Hx. cbn; tauto. }
  inversion G as [|st ? ? ? H1 H2]; subst. inversion H2; subst. eauto.
Qed.
Print Assumptions C110_fused_partial.

(* Texts made of groups of grammatical codes are accepted. *)
Theorem C110_accepted_partial : forall gs, gs <> [] -> Forall (fun g => some wf_code g) gs ->
  let c := mkC (join "," (map text_group gs)) None in
  exists x sts, sensor_coerce (SData (DChan c)) = Ok x /\ streams x = Ok sts.
Proof. intros gs Hn H c. destruct (coerced_total gs Hn H) as (sts & E). eexists _, sts. split; [reflexivity|exact E]. Qed.
Print Assumptions C110_accepted_partial.

(* a spec object is returned as it is; a number gives that many names *)
Theorem C110_objects : forall x, sensor_coerce (SObj x) = Ok x.
Proof. reflexivity. Qed.
Print Assumptions C110_objects.
Example C110_case :
  rmap streams (sensor_coerce (SData (DChan (mkC "rgb|a.1:3,u:2" None)))) =
    Ok (Ok [("*", mkF ["rgb"; "a.1"; "a.2"] false); ("*", mkF ["u.0"; "u.1"] false)]) /\
  rmap streams (sensor_coerce (SData (DInt 2))) = Ok (Ok [("*", mkF ["u0"; "u1"] false)]) /\
  sensor_coerce (SData (DList ["a"])) = Err TypeError.
Proof. repeat split; vm_compute; reflexivity. Qed.

(** * C111: ChannelSpec.coerce and FusedChannelSpec.coerce *)
(* to a ChannelSpec and back, with any history of the cache *)
Theorem C111_roundtrip : forall f names m, good f -> denotes_all (codes f) names ->
  exists c f', chan_coerce (DFused f) = Ok c /\ fst (coerce m (DChan c)) = Ok f' /\ codes f' = codes f /\
    cnumel c = Ok (Z.of_nat (List.length names)) /\ chan_coerce (DChan c) = Ok c.
Proof.
  intros f names m Hg Hd. eexists _, _. split; [reflexivity|]. split; [reflexivity|]. split; [reflexivity|].
  split; [|reflexivity]. unfold cnumel, csizes. cbn [cparse cparsed mapR snd].
  rewrite (numel_names f names Hg Hd). cbn. f_equal. lia.
Qed.
Print Assumptions C111_roundtrip.

(* A ChannelSpec with one stream, however often it is repeated, becomes that stream. One
   with no stream or with two different ones is refused: no stream is dropped silently. *)
Theorem C111_single_stream : forall m s,
  (forall l, (forall l', In l' (read_streams s) <-> l' = l) ->
     exists f, fst (coerce m (DChan (mkC s None))) = Ok f /\ codes f = l) /\
  (forall l1 l2, In l1 (read_streams s) -> In l2 (read_streams s) -> l1 <> l2 ->
     fst (coerce m (DChan (mkC s None))) = Err ValueError) /\
  (read_streams s = [] -> fst (coerce m (DChan (mkC s None))) = Err ValueError).
Proof.
  intros m s. unfold coerce. cbn [key_of]. change (cparse (mkC s None)) with (parse_text s).
  pose proof (parse_text_NoDup s) as Hn.
  pose proof (parse_text_streams s) as Hs.
  pose proof (fun k f => proj1 (parse_text_In s k f)) as Hi.
  destruct (parse_text s) as [|[k f] [|[k2 f2] r]] eqn:E.
  - split; [|split].
    + intros l Hl. exfalso. specialize (Hs l). rewrite Hl in Hs. now destruct (proj2 Hs eq_refl).
    + intros; reflexivity.
    + reflexivity.
  - split; [|split].
    + intros l Hl. eexists. split; [reflexivity|]. cbn. apply Hl. apply Hs. now left.
    + intros l1 l2 H1 H2 N. apply Hs in H1, H2. cbn in H1, H2. destruct H1 as [H1 | []], H2 as [H2 | []]. congruence.
    + intros Hr. specialize (Hs (codes f)). rewrite Hr in Hs. exfalso. apply Hs. now left.
  - split; [|split; reflexivity].
    intros l Hl. exfalso.
    assert (H1 : codes f = l) by (apply Hl, Hs; left; reflexivity).
    assert (H2 : codes f2 = l) by (apply Hl, Hs; right; left; reflexivity).
    destruct (Hi k f ltac:(left; reflexivity)) as (_ & ->). destruct (Hi k2 f2 ltac:(right; left; reflexivity)) as (_ & ->).
    cbn [codes] in *. assert (k = k2). { rewrite <- (join_split "|" k), <- (join_split "|" k2). congruence. }
    subst. inversion Hn as [|? ? K _]. apply K. now left.
Qed.
Print Assumptions C111_single_stream.

(* for a positive number of channels both classes give the same names *)
Theorem C111_number_partial : forall n, (0 < n)%Z ->
  exists c f, chan_coerce (DInt n) = Ok c /\ coerce_fresh (DInt n) = Ok f /\ coerce_fresh (DChan c) = Ok f /\
    numel f = Ok n /\ cnumel c = Ok n /\
    forall i, (0 <= i < n)%Z -> nth_error (codes f) (Z.to_nat i) = Some ("u" ++ Z_str i).
Proof.
  intros n Hn. exists (chan_from_int n), (mkF (from_int_codes n) false).
  assert (Hl : Z.of_nat (List.length (from_int_codes n)) = n).
  { unfold from_int_codes. rewrite map_length, zseq_length. lia. }
  assert (Hne : from_int_codes n <> []). { intros E. rewrite E in Hl. cbn in Hl. lia. }
  assert (Hc : forall d, d <> "u"%char -> dec_digit d = false -> Forall (fun x => contains d x = false) (from_int_codes n)).
  { intros d Hu Hd. apply Forall_map. apply Forall_forall. intros i Hi. apply zseq_In in Hi. cbn [contains].
    rewrite (proj2 (Ascii.eqb_neq _ _)) by congruence. cbn [orb]. apply int_no; [exact Hd|]. apply Z_str_int. lia. }
  assert (Hj : contains "," (join "|" (from_int_codes n)) = false).
  { rewrite contains_join by discriminate. apply not_true_is_false. intros E. apply existsb_exists in E as (x & Hx & E).
    specialize (Hc ","%char ltac:(discriminate) eq_refl). rewrite Forall_forall in Hc. rewrite (Hc x Hx) in E. discriminate. }
  assert (Hp : cparse (chan_from_int n) = [(join "|" (from_int_codes n), mkF (from_int_codes n) false)]).
  { unfold cparse, chan_from_int. cbn [cparsed ctext]. unfold parse_text. rewrite split_no_sep by exact Hj. cbn [filter].
    destruct (String.eqb_spec (join "|" (from_int_codes n)) "") as [E | _].
    - exfalso. apply join_empty in E as [E | E]; [contradiction|]. unfold from_int_codes in E.
      destruct (zseq (Z.to_nat n)); discriminate.
    - cbn. rewrite split_join; [reflexivity|exact Hne|]. apply Hc; [discriminate|reflexivity]. }
  assert (Hd : denotes_all (from_int_codes n) (from_int_codes n)).
  { exists (map (fun x => [x]) (from_int_codes n)). split.
    - clear -Hc. specialize (Hc ":"%char ltac:(discriminate) eq_refl). unfold from_int_codes in *.
      rewrite Forall_map in Hc. rewrite map_map. induction Hc as [|i l H _ IH]; cbn [map]; constructor; [|exact IH].
      apply den_atom. split; [|exact H]. cbn. intros K. repeat (destruct K as [K | K]; [discriminate|]). exact K.
    - clear. induction (from_int_codes n) as [|x l IH]; cbn; [reflexivity|]. now rewrite <- IH. }
  assert (Hnum : numel (mkF (from_int_codes n) false) = Ok n).
  { rewrite (numel_names (mkF (from_int_codes n) false) _ ltac:(intros K; discriminate) Hd). now rewrite Hl. }
  split; [reflexivity|]. split; [reflexivity|]. split.
  { unfold coerce_fresh, coerce. cbn [key_of]. rewrite Hp. reflexivity. }
  split; [exact Hnum|]. split.
  { unfold cnumel, csizes. rewrite Hp. cbn [mapR snd]. rewrite Hnum. cbn. f_equal. lia. }
  intros i Hi. cbn [codes]. unfold from_int_codes, zseq. rewrite !nth_error_map.
  rewrite (nth_error_nth' _ O) by (rewrite seq_length; lia). rewrite seq_nth by lia. cbn. now rewrite Z2Nat.id by lia.
Qed.
Print Assumptions C111_number_partial.

(* with no channels the two classes disagree: the ChannelSpec has no stream left to fuse *)
Theorem C111_zero_refuted :
  coerce_fresh (DInt 0) = Ok (mkF [] false) /\
  exists c, chan_coerce (DInt 0) = Ok c /\ cnumel c = Ok 0%Z /\ coerce_fresh (DChan c) = Err ValueError.
Proof. split; [reflexivity|]. eexists. repeat split. Qed.
Print Assumptions C111_zero_refuted.
Example C111_case_single : read_streams "a|b,a|b" = [["a"; "b"]; ["a"; "b"]] /\
  coerce_fresh (DChan (mkC "a|b,a|b" None)) = Ok (mkF ["a"; "b"] false) /\
  coerce_fresh (DChan (mkC "a,b" None)) = Err ValueError /\ coerce_fresh (DChan (mkC "," None)) = Err ValueError.
Proof. repeat split; vm_compute; reflexivity. Qed.
Example C111_case : coerce_fresh (DChan (chan_from_int 3)) = Ok (mkF ["u0"; "u1"; "u2"] false) /\
  good (mkF ["rgb"; "a:2"] false) /\ denotes_all ["rgb"; "a:2"] ["r"; "g"; "b"; "a.0"; "a.1"].
Proof.
  split; [vm_compute; reflexivity|]. split; [discriminate|]. exists [["r"; "g"; "b"]; ["a.0"; "a.1"]].
  split; [|reflexivity]. constructor; [|constructor; [|constructor]]; apply expand_denotes; reflexivity.
Qed.
