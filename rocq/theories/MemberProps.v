(* C117-C118: membership tests of channel specs, and demo items. *)
From Verif Require Import PyProofs ChanSpec ChanProofs ChanStreamProofs EncodeModel EncodeSpec EncodeProofs MemberModel.
Local Open Scope string_scope.

(* The channel names of the spec text s. *)
Definition has_channel (s key : string) : Prop :=
  exists codes names, In codes (read_streams s) /\ denotes_all codes names /\ In key names.

Lemma mapR_iter l : Forall (fun kv : string * fused => isnorm (snd kv) = true) l ->
  mapR (fun kv => fused_iter (snd kv)) l = Ok (map (fun kv => codes (snd kv)) l).
Proof.
  induction 1 as [|[k f] l H _ IH]; [reflexivity|]. cbn [mapR map snd] in *. unfold fused_iter at 1, normalize. rewrite H. cbn [bind].
  now rewrite IH.
Qed.

Lemma unique_names s n : cnormalize (mkC s None) = Ok n ->
  exists u, chan_unique false (mkC s None) = Ok u /\ forall key, (In key u -> has_channel s key) /\ (key <> "" -> has_channel s key -> In key u).
Proof.
  intros H. unfold chan_unique. rewrite H. cbn [bind].
  apply cnormalize_vals in H as (vals & Hv & -> & Hf & Hd).
  set (d := dict_of (map (fun v => (fspec v, v)) vals)).
  change (cparse {| ctext := join "," (map fst d); cparsed := Some d |}) with d.
  assert (Hin : forall v, In v (map snd d) -> In v vals).
  { intros v Hi. apply in_map_iff in Hi as ([k w] & <- & Hi). apply dict_of_In in Hi. apply in_map_iff in Hi as (x & [= <- <-] & Hx). exact Hx. }
  rewrite mapR_iter.
  2:{ apply Forall_forall. intros kv Hkv. rewrite Forall_forall in Hf. apply Hf. apply Hin. now apply in_map. }
  cbn [bind]. eexists. split; [reflexivity|]. intros key. rewrite in_concat. split; [|intros Hne].
  - intros (l & Hl & Hk). apply in_map_iff in Hl as (kv & <- & Hkv).
    destruct (proj1 (Hd (codes (snd kv)))) as (l0 & Hl0 & Hden).
    { exists (snd kv). split; [|reflexivity]. apply Hin. now apply in_map. }
    exists l0, (codes (snd kv)). auto.
  - intros (l0 & names & Hl0 & Hden & Hk).
    destruct (proj2 (Hd names) (ex_intro _ l0 (conj Hl0 Hden))) as (v & Hiv & <-).
    assert (Hkeys : In (fspec v) (map fst d)).
    { apply dict_of_keys. rewrite map_map. apply in_map_iff. exists v. auto. }
    apply in_map_iff in Hkeys as ([k w] & E & Hw). cbn in E. subst k.
    pose proof Hw as Hw'. apply dict_of_In in Hw'. apply in_map_iff in Hw' as (x & Ex & Hx). injection Ex as E1 <-.
    exists (codes x). split; [apply in_map_iff; exists (fspec v, x); auto|].
    assert (codes x = codes v); [|congruence].
    rewrite Forall_forall in Hf. destruct (Hf _ Hx) as (Cx & _), (Hf _ Hiv) as (Cv & _).
    assert (Nv : codes v <> []) by (intros E; rewrite E in Hk; destruct Hk).
    unfold fspec in E1.
    assert (P : forall f, Forall clean (codes f) -> Forall (fun y => contains "|" y = false) (codes f)).
    { intros f Hc. eapply Forall_impl; [|exact Hc]. intros y (A & B); assumption. }
    pose proof (P x Cx) as Px. destruct (codes x) as [|x0 xs] eqn:Ecx.
    + destruct (join_empty "|" (codes v) (eq_sym E1)) as [E | E]; [contradiction|].
      rewrite E in Hk. destruct Hk as [Hk | []]. congruence.
    + rewrite <- (split_join "|" (codes v) Nv (P v Cv)), <- E1.
      symmetry. apply split_join; [discriminate|exact Px].
Qed.

(** * C117: `name in spec` *)
(* A ChannelSpec contains exactly the channels it stands for; [unique] lists them, and its
   [normalize] flag changes nothing. *)
Theorem C117_channel_spec : forall s n, cnormalize (mkC s None) = Ok n ->
  (forall key, key <> "" -> exists b, chan_in key (mkC s None) = Ok b /\ (b = true <-> has_channel s key)) /\
  exists u u', chan_unique false (mkC s None) = Ok u /\ chan_unique true (mkC s None) = Ok u' /\
    forall key, key <> "" -> In key u <-> In key u'.
Proof.
  intros s n H. destruct (unique_names s n H) as (u & Hu & Hk). split.
  - intros key Hne. unfold chan_in. rewrite Hu. cbn [bind]. eexists. split; [reflexivity|]. rewrite str_mem_In.
    split; [apply Hk|now apply Hk].
  - pose proof H as H0. apply cnormalize_vals in H0 as (vals & Hv & _ & _ & Hd).
    assert (E : mapR (fun kv : string * fused => fused_iter (snd kv)) (parse_text s) = Ok (map codes vals)).
    { clear -Hv. revert vals Hv. induction (parse_text s) as [|kv l IH]; intros vals Hv; cbn [mapR] in *; [injection Hv as <-; reflexivity|].
      apply bind_ok in Hv as (v & Hn & Hv). apply bind_ok in Hv as (vs & Hvs & [= <-]). unfold fused_iter at 1. rewrite Hn. cbn [bind].
      rewrite (IH _ Hvs). reflexivity. }
    exists u, (List.concat (map codes vals)). split; [exact Hu|]. split.
    + unfold chan_unique. cbn [bind]. change (cparse (mkC s None)) with (parse_text s). rewrite E. reflexivity.
    + intros key Hne. assert (G : In key (List.concat (map codes vals)) <-> has_channel s key).
      { rewrite in_concat. split.
        - intros (l & Hl & K). apply in_map_iff in Hl as (v & <- & Hv'). destruct (proj1 (Hd (codes v))) as (l0 & A & B); [eauto|].
          exists l0, (codes v). auto.
        - intros (l0 & names & A & B & K). destruct (proj2 (Hd names)) as (v & Hv' & <-); [eauto|]. exists (codes v). split; [now apply in_map|exact K]. }
      rewrite G. split; [apply Hk|now apply Hk].
Qed.
Print Assumptions C117_channel_spec.

(* A FusedChannelSpec only knows its codes as written: it denies channels it has, and
   disagrees with the ChannelSpec of the same text. *)
Theorem C117_fused_refuted :
  has_channel "rgb|a:3" "r" /\ fused_in "r" (fparse "rgb|a:3") = false /\ chan_in "r" (mkC "rgb|a:3" None) = Ok true /\
  has_channel "rgb|a:3" "a.1" /\ fused_in "a.1" (fparse "rgb|a:3") = false /\
  ~ has_channel "rgb|a:3" "rgb" /\ fused_in "rgb" (fparse "rgb|a:3") = true.
Proof.
  assert (D : denotes_all ["rgb"; "a:3"] ["r"; "g"; "b"; "a.0"; "a.1"; "a.2"]).
  { exists [["r"; "g"; "b"]; ["a.0"; "a.1"; "a.2"]]. split; [|reflexivity].
    constructor; [|constructor; [|constructor]]; apply expand_denotes; reflexivity. }
  split; [exists ["rgb"; "a:3"], ["r"; "g"; "b"; "a.0"; "a.1"; "a.2"]; cbn; auto|].
  split; [reflexivity|]. split; [vm_compute; reflexivity|].
  split; [exists ["rgb"; "a:3"], ["r"; "g"; "b"; "a.0"; "a.1"; "a.2"]; cbn; auto 10|].
  split; [reflexivity|]. split; [|reflexivity].
  destruct (C117_channel_spec "rgb|a:3" (mkC "r|g|b|a.0|a.1|a.2" (Some [("r|g|b|a.0|a.1|a.2", mkF ["r"; "g"; "b"; "a.0"; "a.1"; "a.2"] true)]))) as (H & _); [vm_compute; reflexivity|].
  destruct (H "rgb" ltac:(discriminate)) as (b & Hb & Hi). vm_compute in Hb. injection Hb as <-. rewrite <- Hi. discriminate.
Qed.
Print Assumptions C117_fused_refuted.
(* It is right when every code is a plain channel name, as after normalize(). *)
Theorem C117_fused_partial : forall f, Forall atomic (codes f) ->
  forall key, fused_in key f = true <-> exists names, denotes_all (codes f) names /\ In key names.
Proof.
  intros f H key. unfold fused_in. rewrite str_mem_In.
  assert (D : denotes_all (codes f) (codes f)).
  { exists (map (fun c => [c]) (codes f)). split; [now apply Forall2_denotes_atoms|]. now rewrite concat_singletons. }
  split; [eauto|]. intros (names & (ls & F & ->) & Hk).
  assert (E : Ok ls = Ok (map (fun c => [c]) (codes f)) :> result (list (list string))).
  { rewrite <- (mapR_expand_atomic _ H). symmetry. clear -F. induction F as [|c l cs ls Hc F IH]; [reflexivity|]. cbn [mapR].
    apply expand_denotes in Hc. rewrite Hc. cbn [bind]. now rewrite IH. }
  injection E as ->. now rewrite concat_singletons in Hk.
Qed.
Print Assumptions C117_fused_partial.
Example C117_case : chan_in "a.1" (mkC "rgb|a:3,x" None) = Ok true /\ chan_in "a.3" (mkC "rgb|a:3,x" None) = Ok false /\
  chan_unique false (mkC "rgb,r|x" None) = Ok ["r"; "g"; "b"; "r"; "x"] /\ chan_in "a" (mkC "a:" None) = Err ValueError.
Proof. repeat split; vm_compute; reflexivity. Qed.

(** * C118: demo items satisfy the spec *)
(* A text with an empty stream has channels, yet no demo item. *)
Theorem C118_demo_refuted : forall X (fill : string -> Z -> X),
  cnumel (mkC "a,,b" None) = Ok 2%Z /\ demo_item fill (mkC "a,,b" None) = Err KeyError.
Proof. intros. split; vm_compute; reflexivity. Qed.
Print Assumptions C118_demo_refuted.

Lemma dict_of_app {A} (l : list (string * A)) d : fold_left (fun d cs => dict_set (fst cs) (snd cs) d) l (dict_of d) = dict_of (d ++ l).
Proof. unfold dict_of. now rewrite fold_left_app. Qed.

(* the sizes of the codes of one stream *)
Definition code_sizes (codes : list string) (l : list (string * Z)) : Prop :=
  Forall2 (fun c cs => fst cs = c /\ exists names, denotes c names /\ snd cs = Z.of_nat (List.length names)) codes l.

Lemma sizes_of l : Forall (fun c => exists names, denotes c names) l ->
  exists szs, sizes (mkF l false) = Ok szs /\ code_sizes l (combine l szs).
Proof.
  intros H. unfold sizes. cbn [isnorm codes].
  induction H as [|c l (names & Hn) _ (szs & IH & F)]; [exists []; split; [reflexivity|constructor]|].
  exists (Z.of_nat (List.length names) :: szs). cbn [mapR]. rewrite code_size_expand. apply expand_denotes in Hn as Hn'. rewrite Hn'. cbn [rmap bind].
  rewrite IH. split; [reflexivity|]. cbn [combine]. constructor; [|exact F]. split; [reflexivity|]. exists names. auto.
Qed.

Lemma shapes_ok s keys : forall d, (forall k, In k keys -> In k (split "," s) /\ k <> "" /\ Forall (fun c => exists names, denotes c names) (split "|" k)) ->
  exists ls, item_shapes_loop (parse_text s) keys (dict_of d) = Ok (dict_of (d ++ List.concat ls)) /\
    Forall2 (fun k l => code_sizes (split "|" k) l) keys ls.
Proof.
  induction keys as [|k keys IH]; intros d H.
  - exists []. cbn. rewrite app_nil_r. auto.
  - destruct (H k (or_introl eq_refl)) as (Hk & Hne & Hd). destruct (sizes_of _ Hd) as (szs & Hs & F).
    assert (G : dict_index k (parse_text s) = Ok (mkF (split "|" k) false)).
    { unfold dict_index. rewrite (dict_In_get k (mkF (split "|" k) false)); [reflexivity|apply parse_text_NoDup|].
      apply parse_text_In. split; [|reflexivity]. apply filter_In. split; [exact Hk|]. now apply nonempty_true. }
    destruct (IH (d ++ combine (split "|" k) szs)%list) as (ls & E & Fs); [intros; apply H; now right|].
    exists (combine (split "|" k) szs :: ls). split; [|now constructor]. cbn [item_shapes_loop]. rewrite G. cbn [bind]. rewrite Hs. cbn [bind codes].
    rewrite dict_of_app, E. cbn [List.concat]. now rewrite app_assoc.
Qed.

(* The demo item has one entry per code, with as many channels as the code stands for; the
   spec encodes it, and every stream gets all of its channels. Missing: specs that repeat a
   code within a stream or have codes without channels. *)
Theorem C118_demo_partial : forall X (fill : string -> Z -> X) s,
  Forall (fun k => k <> "") (split "," s) ->
  (forall codes, In codes (read_streams s) -> NoDup codes /\ Forall (fun c => c <> "" /\ exists names, denotes c names /\ names <> []) codes) ->
  exists item out, demo_item fill (mkC s None) = Ok item /\ encode1 (mkC s None) item = Ok out /\
    (forall c, In c (map fst item) <-> exists codes, In codes (read_streams s) /\ In c codes) /\
    (forall c a names, In (c, a) item -> denotes c names -> List.length a = List.length names) /\
    (forall k, In k (map fst out) <-> In k (map (join "|") (read_streams s))) /\
    (forall codes names, In codes (read_streams s) -> denotes_all codes names ->
       exists a, dict_get (join "|" codes) out = Some a /\ List.length a = List.length names).
Proof.
  intros X fill s Hs Hc.
  assert (Hr : read_streams s = map (split "|") (split "," s)).
  { rewrite read_streams_alt. f_equal. apply filter_id. intros x Hx. rewrite Forall_forall in Hs. apply nonempty_true. now apply Hs. }
  destruct (shapes_ok s (split "," s) []) as (ls & E & F).
  { intros k Hk. rewrite Forall_forall in Hs. split; [exact Hk|]. split; [now apply Hs|].
    destruct (Hc (split "|" k)) as (_ & G); [rewrite Hr; now apply in_map|]. eapply Forall_impl; [|exact G]. intros c (_ & names & Hn & _). eauto. }
  set (shapes := dict_of (List.concat ls)). set (item := map (fun kv => (fst kv, map (fill (fst kv)) (zseq (Z.to_nat (snd kv))))) shapes).
  assert (Hd : demo_item fill (mkC s None) = Ok item).
  { unfold demo_item, item_shapes. change (cparse (mkC s None)) with (parse_text s). change (ckeys (mkC s None)) with (split "," s).
    change (@nil (string * Z)) with (dict_of (@nil (string * Z))). rewrite E. reflexivity. }
  assert (Hl : forall cs, In cs (List.concat ls) -> exists codes, In codes (read_streams s) /\ In (fst cs) codes /\
     exists names, denotes (fst cs) names /\ snd cs = Z.of_nat (List.length names)).
  { intros cs Hi. apply in_concat in Hi as (l & Hl & Hi). rewrite Hr. clear -F Hl Hi.
    induction F as [|k l' ks ls' Hk F IH]; [destruct Hl|]. destruct Hl as [-> | Hl].
    - exists (split "|" k). split; [now left|]. unfold code_sizes in Hk. clear -Hk Hi. induction Hk as [|c x cs' l Hx _ IH]; [destruct Hi|].
      destruct Hi as [<- | Hi]; [destruct Hx as (-> & Hx); split; [now left|exact Hx]|]. destruct (IH Hi) as (A & B). split; [now right|exact B].
    - destruct (IH Hl) as (codes & A & B). exists codes. split; [now right|exact B]. }
  assert (Hl' : forall codes c, In codes (read_streams s) -> In c codes -> In c (map fst (List.concat ls))).
  { intros codes c. rewrite Hr. clear -F. induction F as [|k l' ks ls' Hk F IH]; [intros []|]. cbn [map List.concat]. rewrite map_app, in_app_iff.
    intros [<- | Hl] Hi; [left|right; now apply IH]. unfold code_sizes in Hk. clear -Hk Hi. induction Hk as [|c' x cs' l Hx _ IH]; [destruct Hi|].
    destruct Hi as [<- | Hi]; [left; apply Hx|right; now apply IH]. }
  assert (Hk : forall c, In c (map fst item) <-> exists codes, In codes (read_streams s) /\ In c codes).
  { intros c. unfold item. rewrite map_map. cbn [fst]. change (map (fun x : string * Z => fst x) shapes) with (map fst shapes). unfold shapes. rewrite dict_of_keys.
    split; [|intros (codes & A & B); eauto]. intros Hi. apply in_map_iff in Hi as (cs & <- & Hi). destruct (Hl cs Hi) as (codes & A & B & _). eauto. }
  assert (Hn : forall c a names, In (c, a) item -> denotes c names -> List.length a = List.length names).
  { intros c a names Hi Hden. apply in_map_iff in Hi as (cs & [= <- <-] & Hi). apply dict_of_In in Hi. destruct (Hl cs Hi) as (_ & _ & _ & names' & Hd' & ->).
    rewrite map_length, zseq_length, Nat2Z.id. now rewrite (denotes_functional _ _ _ Hden Hd'). }
  set (gs := map (fun kv => [kv]) item : list (@group X)).
  assert (Hgs : List.concat gs = item) by apply concat_singletons.
  assert (Hit : item_of gs item).
  { split; [|split].
    - unfold gs. rewrite map_map. rewrite <- (map_id item) at 1. apply map_ext. intros [c a]. cbn. now rewrite app_nil_r.
    - unfold gs. apply Forall_map. apply Forall_forall. intros [c a] Hi.
      destruct (proj1 (Hk c)) as (codes & A & B); [apply in_map_iff; exists (c, a); auto|].
      destruct (Hc codes A) as (_ & G). rewrite Forall_forall in G. destruct (G c B) as (Hne & names & Hden & _).
      split; [|split; [discriminate|cbn; congruence]]. constructor; [|constructor]. cbn [fst].
      rewrite Hr in A. apply in_map_iff in A as (k & <- & A). pose proof (pieces_clean s k A) as Cl. rewrite Forall_forall in Cl. destruct (Cl c B) as (C1 & C2).
      split; [assumption|]. split; [assumption|]. exists names. split; [exact Hden|]. symmetry. now apply (Hn c a names).
    - rewrite Hgs. unfold item. rewrite map_map. cbn [fst]. apply dict_of_NoDup. }
  assert (Hst : forall c codes, In codes (read_streams s) -> In c codes -> exists b, holds gs c b).
  { intros c codes A B. assert (In c (map fst item)) as Hi by (apply Hk; eauto). apply in_map_iff in Hi as ([c' b] & <- & Hi). exists b. unfold holds. now rewrite Hgs. }
  destruct (encode1_ok gs item Hit s) as (out & Ho & _ & Hko & Hg).
  { unfold gs. intros E0. apply map_eq_nil in E0. assert (exists codes c, In codes (read_streams s) /\ In c codes) as (codes & c & A & B).
    { rewrite Hr. destruct (split "," s) as [|k ks] eqn:Es; [now apply split_nonempty in Es|]. destruct (split "|" k) as [|c cs] eqn:Ek; [now apply split_nonempty in Ek|].
      exists (c :: cs), c. cbn. rewrite Ek. auto. }
    assert (In c (map fst item)) as Hi by (apply Hk; eauto). rewrite E0 in Hi. destruct Hi. }
  { intros codes A. destruct (Hc codes A) as (Nd & G). split; [exact Nd|]. apply Forall_forall. intros c B. destruct (Hst c codes A B) as (b & Hb). exists b. split; [exact Hb|].
    rewrite Forall_forall in G. destruct (G c B) as (_ & names & Hden & Hne). unfold holds in Hb. rewrite Hgs in Hb. pose proof (Hn c b names Hb Hden) as L.
    intros ->. destruct names; [now apply Hne|discriminate]. }
  exists item, out. split; [exact Hd|]. split; [exact Ho|]. split; [exact Hk|]. split; [exact Hn|]. split; [exact Hko|].
  intros codes names A (nls & Fd & ->).
  assert (B : exists bs, Forall2 (holds gs) codes bs /\ List.length (List.concat bs) = List.length (List.concat nls)).
  { assert (Hst' : forall c, In c codes -> exists b, holds gs c b) by (intros c Hc'; exact (Hst c codes A Hc')). clear A.
    induction Fd as [|c nl cs nls Hden Fd IH]; [exists []; split; [constructor|reflexivity]|].
    destruct (Hst' c (or_introl eq_refl)) as (b & Hb). destruct IH as (bs & F2 & L); [intros; apply Hst'; now right|].
    exists (b :: bs). split; [now constructor|]. cbn [List.concat]. rewrite !app_length, L. unfold holds in Hb. rewrite Hgs in Hb. now rewrite (Hn c b nl Hb Hden). }
  destruct B as (bs & F2 & L). exists (List.concat bs). split; [now apply Hg|exact L].
Qed.
Print Assumptions C118_demo_partial.
Example C118_case :
  let s := "rgb|a.1:3,x" in
  demo_item (fun c i => (c, i)) (mkC s None) =
    Ok [("rgb", [("rgb", 0%Z); ("rgb", 1%Z); ("rgb", 2%Z)]); ("a.1:3", [("a.1:3", 0%Z); ("a.1:3", 1%Z)]); ("x", [("x", 0%Z)])] /\
  (item <- demo_item (fun c i => (c, i)) (mkC s None) ;; out <- encode1 (mkC s None) item ;; Ok (map (fun kv => (fst kv, List.length (snd kv))) out)) =
    Ok [("rgb|a.1:3", 5%nat); ("x", 1%nat)] /\
  forall codes, In codes (read_streams s) -> NoDup codes /\ Forall (fun c => c <> "" /\ exists names, denotes c names /\ names <> []) codes.
Proof.
  split; [vm_compute; reflexivity|]. split; [vm_compute; reflexivity|].
  intros codes [<- | [<- | []]]; (split; [cbn; repeat constructor; cbn; intuition discriminate|]).
  - constructor; [|constructor; [|constructor]]; (split; [discriminate|]).
    + exists ["r"; "g"; "b"]. split; [apply expand_denotes; reflexivity|discriminate].
    + exists ["a.1"; "a.2"]. split; [apply expand_denotes; vm_compute; reflexivity|discriminate].
  - constructor; [|constructor]. split; [discriminate|]. exists ["x"]. split; [apply expand_denotes; reflexivity|discriminate].
Qed.
