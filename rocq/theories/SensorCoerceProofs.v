From Verif Require Import PyProofs ChanProofs ChanConciseProofs ChanStreamProofs SensorProofs SensorStreamProofs SensorConciseProofs.
From Verif Require Export SensorSpec SensorCoerceModel.
Local Open Scope string_scope.

Lemma fused_nm f : isnorm f = false -> Forall nm (codes f) -> fparse (fspec f) = f.
Proof.
  destruct f as [l b]. cbn [isnorm codes]. intros -> H. unfold fparse, fspec. cbn [codes].
  destruct l as [|n l]; [reflexivity|].
  destruct (String.eqb_spec (join "|" (n :: l)) "") as [E | _].
  - apply join_empty in E as [E | E]; [discriminate|]. injection E as -> _. apply Forall_cons_iff in H as (H & _).
    destruct (nm_cases _ H) as [K | (id & i & _ & _ & K)]; [discriminate|]. destruct id; discriminate.
  - rewrite split_join; [reflexivity|discriminate|]. eapply Forall_impl; [|exact H]. intros; apply nm_no; [trivial|reflexivity|discriminate].
Qed.

Lemma sfused_iff s sts : streams (SText s) = Ok sts ->
  sfused_from_spec s = match sts with [st] => Ok (SFused (fst st) (snd st)) | _ => Err ValueError end.
Proof.
  intros H. pose proof (streams_ok _ _ H) as (_ & Hok). unfold streams in H. cbn [stext] in H. unfold sfused_from_spec.
  apply bind_ok in H as (nodes & -> & [= <-]). cbn [bind]. destruct nodes as [|n [|n2 nodes]]; try reflexivity.
  cbn [map fst snd] in *. apply Forall_cons_iff in Hok as ((_ & H1 & H2) & _). cbn [fst snd] in *. now rewrite fused_nm.
Qed.

Lemma sfused_err s e : streams (SText s) = Err e -> sfused_from_spec s = Err e.
Proof. unfold streams, sfused_from_spec. cbn [stext]. destruct (normalized_parts s); cbn; congruence. Qed.

Lemma sfused_streams s c : okst (s, c) -> streams (SFused s c) = Ok [(s, c)].
Proof. intros H. apply streams_read; [split; [discriminate|auto]|reflexivity]. Qed.

Lemma sfused_inv s x : sfused_from_spec s = Ok x -> exists st, streams (SText s) = Ok [st] /\ x = SFused (fst st) (snd st) /\ okst st.
Proof.
  intros H. destruct (streams (SText s)) as [sts|e] eqn:E; [|rewrite (sfused_err _ _ E) in H; discriminate].
  rewrite (sfused_iff _ _ E) in H. destruct sts as [|st [|]]; try discriminate. injection H as <-.
  exists st. repeat split; apply streams_ok in E as (_ & E); apply Forall_cons_iff in E as (E & _); apply E.
Qed.

Lemma sfused_normalize_same s c : okst (s, c) -> sfused_normalize (SFused s c) = Ok (SFused s c).
Proof.
  intros H. unfold sfused_normalize. pose proof (sfused_streams _ _ H) as E.
  rewrite normalize_eq by (apply (streams_text_ne _ _ E)).
  change (streams (SText (stext (SFused s c)))) with (streams (SFused s c)). rewrite E. cbn [rmap bind map join].
  change (stream_text (s, c)) with (stext (SFused s c)).
  rewrite (sfused_iff _ [(s, c)]); [reflexivity|]. exact E.
Qed.

Lemma sfused_concise_ok s c : okst (s, c) -> exists c', sfused_concise (SFused s c) = Ok (SFused s c') /\ okst (s, c') /\
  (forall names, denotes_all (codes c) names -> Forall canonical names -> denotes_all (codes c') names).
Proof.
  intros H. pose proof H as (H1 & H2 & H3). cbn [fst snd] in *.
  destruct (stream_item _ H) as (i & Hi & Ht & Hs).
  assert (W : wf [i]) by (split; [discriminate|auto]).
  assert (Et : stext (SFused s c) = text [i]) by (cbn [stext text map join]; rewrite Ht; reflexivity).
  unfold sfused_concise, concise_sensor_chan. rewrite Et, (parse_text_ok _ W). cbn [bind]. rewrite (tr_items_true _ W). cbn [bind].
  pose proof (written_wf _ W) as Hw.
  assert (E : exists g, written [i] = [(s, g)] /\ mkF (gnames g) false = c).
  { unfold written. cbn [flat_map]. rewrite app_nil_r. destruct (item_streams i) as [|[s' g] [|]]; try discriminate.
    injection Hs as <- <-. exists g. auto. }
  destruct E as (g & Eg & <-). rewrite Eg in *. apply Forall_cons_iff in Hw as ((_ & Hg) & _). cbn [fst snd] in Hg.
  destruct (cg_spec _ Hg) as (Ec & g' & Ecg & Hg' & Hne).
  cbn [map fst snd]. change (join "," (concise_parts [mkSN s (cg g)])) with (s ++ String ":" (fspec (cg g))).
  set (tx := (s ++ String ":" (fspec (cg g)))).
  assert (E : streams (SText tx) = Ok [(s, mkF (gnames g') false)]).
  { assert (K : exists j, wf_item j /\ text_item j = tx /\ item_streams j = [(s, g')]).
    { subst tx. rewrite Ecg. destruct g' as [|c0 g'].
      - exists (WithSensor (OneSensor s) None). cbn. auto.
      - exists (WithSensor (OneSensor s) (Some (OneGroup (c0 :: g')))). split; [|split].
        + cbn [wf_item wf_lhs wf_rhs]. repeat split; trivial. discriminate.
        + cbn [text_item text_lhs text_rhs]. rewrite <- app_assoc_s. reflexivity.
        + reflexivity. }
    destruct K as (j & Hj & Hjt & Hjs). rewrite (streams_text (SText tx) [j]).
    - unfold written. cbn [flat_map]. rewrite Hjs. reflexivity.
    - split; [discriminate|auto].
    - cbn [stext text map join]. now rewrite Hjt. }
  exists (mkF (gnames g') false). fold tx. rewrite (sfused_iff _ _ E). split; [reflexivity|].
  pose proof (streams_ok _ _ E) as (_ & Hok). apply Forall_cons_iff in Hok as (Hok & _). split; [exact Hok|].
  intros names Hd Hc. assert (names = names_of' (gnames g)).
  { apply (denotes_all_functional _ _ _ Hd). now apply denotes_nm, gnames_nm. }
  subst names. pose proof (concise_denotes _ Hg Hc) as K. rewrite Ecg in K. cbn [codes] in K |- *.
  rewrite (denotes_all_functional _ _ _ K (group_denotes _ Hg')). now apply denotes_nm, gnames_nm.
Qed.

(** ** A valid channel text is never read as sensors *)
Lemma py_int_iden s : is_iden s = true -> exists e, py_int s = Err e.
Proof.
  intros H. destruct (iden_head _ H) as (c & t & -> & Hc).
  assert (K : is_space c = false /\ Ascii.eqb c "-" = false /\ Ascii.eqb c "+" = false /\ digit_val c = None).
  { revert Hc. clear. destruct c as [[] [] [] [] [] [] [] []]; vm_compute; intros; try discriminate; auto. }
  destruct K as (K1 & K2 & K3 & K4). unfold py_int. cbn [lstrip]. rewrite K1. cbn [rstrip].
  destruct (rstrip t) as [|b r]; [rewrite K1|]; rewrite K2, K3; unfold parse_nat; cbn [parse_digits]; rewrite K4; eauto.
Qed.

Lemma opt_int_iden s : is_iden s = true -> exists e, opt_int s = Err e.
Proof.
  intros H. unfold opt_int. destruct (String.eqb_spec s "") as [-> | _]; [discriminate|].
  destruct (py_int_iden _ H) as (e & ->). cbn. eauto.
Qed.

Lemma alias_colon s : contains ":" s = true -> alias_lut s = None.
Proof.
  intros H. unfold alias_lut.
  destruct (String.eqb_spec s "rgb") as [-> | _]; [discriminate|].
  destruct (String.eqb_spec s "rgba") as [-> | _]; [discriminate|].
  destruct (String.eqb_spec s "dxdy") as [-> | _]; [discriminate|].
  destruct (String.eqb_spec s "fxfy") as [-> | _]; [discriminate|]. reflexivity.
Qed.

Lemma colon_code a t : is_iden a = true -> (t = "" \/ exists c, wf_code c /\ t = text_code c) ->
  exists e, expand (a ++ String ":" t) = Err e.
Proof.
  intros Ha Ht. unfold expand.
  assert (Hc : contains ":" (a ++ String ":" t) = true) by (rewrite contains_app; cbn; now rewrite orb_true_r).
  rewrite (alias_colon _ Hc), Hc. unfold parse_slice_syntax.
  assert (Nd : forall id, is_iden id = true -> contains "." id = false) by (intros; now apply iden_no).
  assert (Nc : forall id, is_iden id = true -> contains ":" id = false) by (intros; now apply iden_no).
  assert (Id : forall id, is_int id = true -> contains "." id = false) by (intros; now apply int_no).
  assert (Ic : forall id, is_int id = true -> contains ":" id = false) by (intros; now apply int_no).
  rewrite contains_app, (Nd _ Ha). cbn [contains orb]. cbn [Ascii.eqb Bool.eqb andb orb].
  rewrite (split_once_app ":" a t (Nc _ Ha)).
  destruct Ht as [-> | (c & Hw & ->)]; [cbn; eauto|].
  destruct c as [id|id i|id b|sep id x b]; cbn [text_code wf_code] in *.
  - rewrite (Nd _ Hw). cbn [bind]. rewrite split_no_sep by auto. destruct (py_int_iden _ Hw) as (e & ->). cbn. eauto.
  - destruct Hw as (H1 & H2). rewrite !contains_app. cbn [contains append Ascii.eqb Bool.eqb andb orb]. rewrite orb_true_r.
    cbn [orb].
    replace (a ++ String ":" (id ++ String "." i)) with ((a ++ String ":" id) ++ String "." i) by (rewrite <- !app_assoc_s; reflexivity).
    rewrite split_once_app by (rewrite contains_app; cbn; rewrite !Nd by trivial; reflexivity).
    rewrite split_no_sep by auto. cbn. eauto.
  - destruct Hw as (H1 & H2). rewrite !contains_app. cbn [contains append Ascii.eqb Bool.eqb andb orb].
    rewrite (Nd _ H1), (Id _ H2). cbn [orb bind]. rewrite split_app, split_no_sep by auto.
    destruct (opt_int_iden _ H1) as (e & ->). cbn. eauto.
  - destruct Hw as (H1 & H2 & H3 & [<- | [<- | []]]).
    + rewrite !contains_app. cbn [contains append Ascii.eqb Bool.eqb andb orb]. rewrite orb_true_r. cbn [orb].
      replace (a ++ String ":" (id ++ String "." (x ++ String ":" b))) with ((a ++ String ":" id) ++ String "." (x ++ String ":" b)) by (rewrite <- !app_assoc_s; reflexivity).
      rewrite split_once_app by (rewrite contains_app; cbn; rewrite !Nd by trivial; reflexivity).
      assert (Es : split ":" (x ++ String ":" b) = [x; b]) by (rewrite split_app by auto; f_equal; now apply split_no_sep; auto).
      rewrite Es. change (Z.of_nat (List.length [x; b]) <=? 1)%Z with false. cbn [bind]. rewrite Es.
      destruct (opt_int x); cbn [bind]; [|eauto]. destruct (opt_int b) as [[|]|]; cbn [bind]; try (eexists; reflexivity).
      rewrite !contains_app. cbn [contains Ascii.eqb Bool.eqb andb orb]. rewrite !orb_true_r. cbn. eauto.
    + rewrite !contains_app. cbn [contains append Ascii.eqb Bool.eqb andb orb]. rewrite !contains_app. cbn [contains append Ascii.eqb Bool.eqb andb orb]. rewrite (Nd _ H1), (Id _ H2), (Id _ H3). cbn [orb bind].
      rewrite split_app, split_app, split_no_sep by auto. destruct (opt_int_iden _ H1) as (e & ->). cbn. eauto.
Qed.

Lemma split_head_app c x y : contains c x = false ->
  exists h t, split c y = h :: t /\ split c (x ++ y) = (x ++ h) :: t.
Proof.
  intros H. destruct (split c y) as [|h t] eqn:E; [now apply split_nonempty in E|]. exists h, t. split; [reflexivity|].
  induction x as [|a x IH]; [exact E|]. cbn in H |- *. apply orb_false_iff in H as [-> H]. now rewrite (IH H).
Qed.

Lemma item_channels p i names : contains "(" p = false -> parse_item p = Ok i -> denotes_all (split "|" p) names ->
  exists g, i = NoSensor (OneGroup g) /\ some wf_code g /\ map text_code g = split "|" p.
Proof.
  intros Hp H (ls & Hd & _). apply item_parse_text in H as (-> & Hw).
  destruct i as [l r|r].
  2:{ destruct r as [g|gs]; [|discriminate]. exists g. destruct Hw as (Hg & _). split; [reflexivity|]. split; [exact Hg|].
      cbn [text_item text_rhs]. unfold text_group. rewrite split_join; [reflexivity| |].
      - destruct Hg as (Hn & _). destruct g; [congruence|discriminate].
      - rewrite Forall_map. destruct Hg as (_ & Hg). eapply Forall_impl; [|exact Hg]. intros c Hc. apply code_no; trivial; discriminate. }
  exfalso. rewrite item_text_eq in Hd, Hp. apply wf_item_eq in Hw as (Hl & Hr). destruct l as [a|l]; [|discriminate].
  cbn [text_lhs wf_lhs] in *. rewrite <- app_assoc_s in Hd. change (":" ++ text_opt r) with (String ":" (text_opt r)) in Hd.
  assert (Hb : contains "|" (a ++ ":") = false) by (rewrite contains_app, (iden_no "|" a eq_refl Hl); reflexivity).
  destruct (split_head_app "|" (a ++ ":") (text_opt r) Hb) as (h & t & E1 & E2).
  rewrite <- app_assoc_s in E2. cbn [append] in E2. rewrite E2 in Hd. inversion Hd as [|? x ? ? Hx _]; subst.
  apply expand_denotes in Hx. rewrite <- app_assoc_s in Hx. cbn [append] in Hx.
  destruct (colon_code a h Hl) as (e & He); [|congruence].
  destruct r as [[g|gs]|]; cbn [text_opt text_rhs] in E1.
  - right. destruct Hr as (Hn & Hg). destruct g as [|c g]; [congruence|]. apply Forall_cons_iff in Hg as (Hc & Hg). exists c. split; [exact Hc|].
    unfold text_group in E1. rewrite split_join in E1; [now injection E1| discriminate |].
    apply Forall_map. constructor; [apply code_no; trivial; discriminate|].
    eapply Forall_impl; [|exact Hg]. intros; apply code_no; trivial; discriminate.
  - rewrite contains_app in Hp. cbn in Hp. rewrite orb_true_r in Hp. discriminate.
  - left. cbn in E1. congruence.
Qed.

Lemma split_top_plain s : contains "(" s = false -> contains ")" s = false -> split_top false s = split "," s.
Proof.
  induction s as [|c s IH]; [reflexivity|]. cbn [contains split_top split]. intros H1 H2.
  apply orb_false_iff in H1 as (H1 & H1'). apply orb_false_iff in H2 as (H2 & H2').
  rewrite Ascii.eqb_sym in H1. rewrite Ascii.eqb_sym in H2. rewrite ?(Ascii.eqb_sym c "("), ?(Ascii.eqb_sym c ")"), H1, H2. rewrite IH by trivial. rewrite andb_true_r. reflexivity.
Qed.

Lemma coerced_streams s namess sts : contains "(" s = false -> contains ")" s = false ->
  Forall2 (fun p names => denotes_all (split "|" p) names) (split "," s) namess ->
  streams (SText s) = Ok sts -> Forall2 (fun st names => stream_is st "*" names) sts namess.
Proof.
  intros H1 H2 Hd H. unfold streams, normalized_parts, parse in H. cbn [stext] in H. rewrite split_top_plain in H by trivial.
  apply bind_ok in H as (nodes & H & [= <-]). apply bind_ok in H as (t & Ht & H). rewrite tr_items_false in H. injection H as <-.
  apply mapR_Forall2 in Ht. pose proof (split_pieces_sub "," "(" s H1) as Hp. clear H1 H2. rewrite map_map.
  revert namess Hd. induction Ht as [|p i ps t Hi _ IH]; intros namess Hd; inversion Hd as [|? names ? rest Hx Hr]; subst; [constructor|].
  apply Forall_cons_iff in Hp as (Hp & Hps).
  destruct (item_channels p i names Hp Hi Hx) as (g & -> & (_ & Hg) & Eg). cbn. constructor; [|now apply IH].
  repeat split. cbn [snd codes]. rewrite <- Eg in Hx. rewrite (denotes_all_functional _ _ _ Hx (group_denotes _ Hg)).
  now apply denotes_nm, gnames_nm.
Qed.

Lemma coerced_total gs : gs <> [] -> Forall (fun g => some wf_code g) gs ->
  exists sts, streams (SText (join "," (map text_group gs))) = Ok sts.
Proof.
  intros Hn H. eexists. apply (streams_text _ (map (fun g => NoSensor (OneGroup g)) gs)).
  - split; [destruct gs; [congruence|discriminate]|]. apply Forall_map. eapply Forall_impl; [|exact H]. intros g Hg. split; [exact Hg|discriminate].
  - cbn [stext]. unfold text. now rewrite map_map.
Qed.
