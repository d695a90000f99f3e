(* Exactly what encode(item, mode=0) does with components that are slices or
   aliases (C81). *)
From Verif Require Import Py PyProofs ChanModel ChanSpec ChanProofs ChanSetProofs ChanStreamProofs EncodeModel EncodeSpec ChanSetProofs EncodeProofs EncodeProps.
Local Open Scope Z_scope.

Lemma components_keys {X} (c : string) : forall (gs : list (@group X)) d,
  In c (map fst (fold_left (fun d g => dict_update d (dict_update [] g)) gs d)) ->
  In c (map fst d) \/ exists b, holds gs c b.
Proof.
  induction gs as [|g gs IH]; intros d H; [now left|]. cbn [fold_left] in H. apply IH in H as [H|(b & H)].
  - apply dict_update_keys in H as [H|H]; [|now left].
    apply dict_update_keys in H as [H|[]]. apply in_map_iff in H as ([c' b] & E & H). cbn in E. subst c'.
    right. exists b. unfold holds. cbn. apply in_or_app. now left.
  - right. exists b. unfold holds in *. cbn. apply in_or_app. now right.
Qed.

(** Mode 0 looks the expanded channel names up, not the components themselves: it
    succeeds exactly when every channel name the streams stand for is itself a
    component of the item (a KeyError otherwise), and then every stream holds the
    data of its channel names in order. *)
Theorem C81_exact {X} (gs : list (@group X)) (item : list (string * list X)) (s : string) :
  item_of gs item -> gs <> [] ->
  (forall codes, In codes (read_streams s) -> exists names, denotes_all codes names /\ names <> []) ->
  ((forall codes names n, In codes (read_streams s) -> denotes_all codes names -> In n names -> exists b, holds gs n b) ->
     exists out, encode0 (mkC s None) item = Ok out /\
       (forall k, In k (map fst out) <-> In k (map (join "|") (read_streams s))) /\
       forall codes names bs, In codes (read_streams s) -> denotes_all codes names -> Forall2 (holds gs) names bs ->
         dict_get (join "|" codes) out = Some (List.concat bs)) /\
  ((exists codes names n, In codes (read_streams s) /\ denotes_all codes names /\ In n names /\ ~ exists b, holds gs n b) ->
     encode0 (mkC s None) item = Err KeyError).
Proof.
  intros Hi Hne Hs. unfold encode0. destruct item as [|i0 item0] eqn:Ei.
  { pose proof Hi as (H & _). destruct gs; [congruence|discriminate]. }
  rewrite <- Ei in *. clear i0 item0 Ei.
  assert (Ei : item = map (fun g => (join "|" (map fst g), List.concat (map snd g))) gs) by apply Hi.
  assert (Ec : item_components item [] = Ok (fold_left (fun d g => dict_update d (dict_update [] g)) gs [])) by (rewrite Ei; apply item_components_ok, Hi).
  rewrite Ec. cbn [bind]. change (cparse (mkC s None)) with (parse_text s).
  pose proof (components_get gs item Hi) as Hget.
  set (comps := fold_left (fun d g => dict_update d (dict_update [] g)) gs []) in *.
  assert (Hc : forall c b, holds gs c b -> dict_index c comps = Ok b).
  { intros c b Hb. unfold dict_index. replace (dict_get c comps) with (Some b); [reflexivity|]. symmetry. apply (Hget c b Hb []). intros k v []. }
  assert (Hc' : forall c, ~ (exists b, holds gs c b) -> dict_index c comps = Err KeyError).
  { intros c Hb. unfold dict_index. destruct (dict_get c comps) as [v|] eqn:E; [|reflexivity]. exfalso. apply Hb.
    apply dict_get_In in E. destruct (components_keys c gs []) as [[]|H]; [|exact H]. apply in_map_iff. now exists (c, v). }
  assert (Hfun : forall c b b', holds gs c b -> holds gs c b' -> b = b').
  { intros c b b' H H'. apply Hc in H. apply Hc in H'. congruence. }
  set (F := fun kv : string * fused => _).
  assert (HN : forall kv, In kv (parse_text s) -> exists names, denotes_all (codes (snd kv)) names /\ names <> [] /\
     F kv = (l <- mapR (fun k => dict_index k comps) names ;; Ok (fst kv, List.concat l))).
  { intros [k f] H. assert (H' := H). apply parse_stream in H as (H & _ & _). apply parse_text_In in H' as [_ Hf].
    destruct (Hs _ H) as (names & Hd & Hnn). exists names. split; [exact Hd|]. split; [exact Hnn|]. unfold F. cbn [fst snd] in *.
    rewrite (normalize_names f names); [|subst f; intros X'; discriminate X'|exact Hd]. cbn [bind codes].
    destruct (mapR (fun k => dict_index k comps) names) as [l|e] eqn:El; [|reflexivity]. cbn [bind].
    destruct l; [|reflexivity]. apply mapR_Forall2 in El. inversion El; subst. contradiction. }
  assert (Hdec : forall n, (exists b, holds gs n b) \/ ~ exists b, holds gs n b).
  { intros n. destruct (dict_index n comps) as [b|e] eqn:E.
    - destruct (in_dec string_dec n (map fst (List.concat gs))) as [H|H].
      + left. apply in_map_iff in H as ([n' b'] & En & H). cbn in En. subst n'. now exists b'.
      + right. intros (b' & Hb). apply H. apply in_map_iff. now exists (n, b').
    - right. intros (b & Hb). rewrite (Hc _ _ Hb) in E. discriminate E. }
  assert (Hall : forall names, (forall n, In n names -> exists b, holds gs n b) ->
     exists bs, Forall2 (holds gs) names bs /\ mapR (fun k => dict_index k comps) names = Ok bs).
  { induction names as [|n names IH]; intros H; [exists []; split; [constructor|reflexivity]|].
    destruct (H n (or_introl eq_refl)) as (b & Hb). destruct IH as (bs & Hbs & E); [intros; apply H; now right|].
    exists (b :: bs). split; [now constructor|]. cbn. now rewrite (Hc _ _ Hb), E. }
  assert (Hany : forall names, mapR (fun k => dict_index k comps) names = Err KeyError \/ forall n, In n names -> exists b, holds gs n b).
  { induction names as [|n names IH]; [right; intros n []|]. cbn.
    destruct (Hdec n) as [(b & Hb)|Hb]; [rewrite (Hc _ _ Hb)|rewrite (Hc' _ Hb)]; cbn [bind]; [|now left].
    destruct IH as [->|IH]; [now left|]. right. intros m [<-|Hm]; [now exists b|now apply IH]. }
  split.
  - intros Hh.
    assert (HF : forall kv, In kv (parse_text s) -> exists names bs, denotes_all (codes (snd kv)) names /\ Forall2 (holds gs) names bs /\ F kv = Ok (fst kv, List.concat bs)).
    { intros kv H. destruct (HN kv H) as (names & Hd & Hnn & E). destruct (Hall names) as (bs & Hbs & E').
      { intros n Hn. destruct kv as [k f]. apply parse_stream in H as (H & _ & _). exact (Hh _ _ _ H Hd Hn). }
      exists names, bs. rewrite E, E'. auto. }
    destruct (mapR_total F (parse_text s)) as (out & Hout).
    { intros kv H. destruct (HF kv H) as (names & bs & _ & _ & E). eauto. }
    exists out. split; [exact Hout|]. apply mapR_Forall2 in Hout.
    assert (HO : Forall2 (fun kv o => fst o = fst kv /\ forall names bs, denotes_all (codes (snd kv)) names -> Forall2 (holds gs) names bs -> o = (fst kv, List.concat bs)) (parse_text s) out).
    { assert (Hg : forall kv, In kv (parse_text s) -> good (snd kv)).
      { intros [k f] H. apply parse_text_In in H as [_ Hf]. cbn. subst f. intros X'. discriminate X'. }
      revert HF Hout Hg. generalize (parse_text s) as P. intros P HF Hout Hg. clear -HF Hout Hfun Hg. induction Hout as [|kv o P out H Hout IH]; constructor.
      - destruct (HF kv (or_introl eq_refl)) as (names & bs & Hd & Hbs & E). rewrite E in H. injection H as <-. split; [reflexivity|].
        intros names' bs' Hd' Hbs'. f_equal. f_equal.
        assert (names' = names).
        { pose proof (normalize_names _ _ (Hg kv (or_introl eq_refl)) Hd) as E1. pose proof (normalize_names _ _ (Hg kv (or_introl eq_refl)) Hd') as E2. congruence. }
        subst names'. clear -Hbs Hbs' Hfun. revert bs' Hbs'. induction Hbs as [|c b cs bs Hb Hbs IH]; intros bs' Hbs'; inversion Hbs'; subst; [reflexivity|].
        f_equal; [eapply Hfun; eassumption|auto].
      - apply IH; intros; [apply HF|apply Hg]; now right. }
    assert (Hk : map fst out = map fst (parse_text s)).
    { clear -HO. induction HO as [|kv o P out (H & _) HO IH]; cbn; [reflexivity|]. now rewrite H, IH. }
    rewrite Hk. split.
    + intros k. rewrite !in_map_iff. split.
      * intros ([k' f] & E & H). cbn in E. subst k'. apply parse_stream in H as (H & -> & _). eauto.
      * intros (l & <- & H). apply stream_parse in H. exists (join "|" l, mkF l false). auto.
    + intros cs names bs Hcs Hd Hbs. apply stream_parse in Hcs. apply dict_of_pairs; [rewrite Hk; apply parse_text_NoDup|].
      clear -HO Hcs Hd Hbs. induction HO as [|kv o P out (_ & H) HO IH]; [destruct Hcs|]. destruct Hcs as [->|Hcs].
      * left. now rewrite (H _ _ Hd Hbs).
      * right. now apply IH.
  - intros (cs & names & n & Hcs & Hd & Hn & Hb). apply stream_parse in Hcs.
    assert (HE : forall kv, In kv (parse_text s) -> F kv = Err KeyError \/ exists o, F kv = Ok o).
    { intros kv H. destruct (HN kv H) as (nm & _ & _ & E). rewrite E. destruct (Hany nm) as [->|H']; [now left|].
      right. destruct (Hall nm H') as (bs & _ & ->). eexists. reflexivity. }
    assert (Hbad : F (join "|" cs, mkF cs false) = Err KeyError).
    { destruct (HN _ Hcs) as (nm & Hd' & _ & E). cbn [snd codes] in Hd'.
      assert (nm = names).
      { assert (G : good (mkF cs false)) by (intros X'; discriminate X').
        pose proof (normalize_names (mkF cs false) _ G Hd) as E1. pose proof (normalize_names (mkF cs false) _ G Hd') as E2. congruence. }
      subst nm. rewrite E. destruct (Hany names) as [->|H']; [reflexivity|]. destruct (Hb (H' _ Hn)). }
    revert HE Hcs Hbad. generalize (join "|" cs, mkF cs false) as kv0. generalize (parse_text s) as P. clear.
    induction P as [|kv P IH]; intros kv0 HE H Hbad; [destruct H|]. cbn [mapR].
    destruct H as [->|H]; [now rewrite Hbad|]. destruct (HE kv (or_introl eq_refl)) as [->|(o & ->)]; [reflexivity|]. cbn [bind].
    rewrite (IH kv0); [reflexivity| |exact H|exact Hbad]. intros; apply HE; now right.
Qed.
Print Assumptions C81_exact.

(** An item with the slice and its channels as separate entries: the two modes read
    different entries. *)
Definition mode_groups : list (@group string) :=
  [[("a.0:2", ["slice0"; "slice1"])]; [("a.0", ["zero"]); ("a.1", ["one"])]]%string.
Definition mode_item : list (string * list string) :=
  [("a.0:2", ["slice0"; "slice1"]); ("a.0|a.1", ["zero"; "one"])]%string.

Example C81_exact_case : item_of mode_groups mode_item /\
  encode0 (mkC "a.0:2" None) mode_item = Ok [("a.0:2", ["zero"; "one"])]%string /\
  encode1 (mkC "a.0:2" None) mode_item = Ok [("a.0:2", ["slice0"; "slice1"])]%string /\
  encode0 (mkC "a.0:3" None) mode_item = Err KeyError.
Proof.
  split; [|repeat split; vm_compute; reflexivity].
  split; [reflexivity|]. split.
  - repeat constructor; cbn; try discriminate; eexists; (split; [apply expand_denotes; vm_compute; reflexivity|reflexivity]).
  - vm_compute. repeat constructor; cbn; intuition discriminate.
Qed.
