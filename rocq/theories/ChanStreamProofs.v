(* Late-fused specs: text/parse agreement, stream-wise algebra, fuse, split,
   late_fuse, component indices, coerce cache, path sanitizing. *)
From Verif Require Import PyProofs ChanModel ChanSpec ChanProofs ChanSetProofs.
From Coq Require Import ZifyBool ZifyNat ZifyN Permutation.
Local Open Scope string_scope.

Definition clean (c : string) : Prop := contains "," c = false /\ contains "|" c = false.

Lemma indexed_free d r i : is_digit d = false -> d <> "-"%char -> d <> "."%char ->
  contains d r = false -> contains d (indexed r i) = false.
Proof.
  intros H1 H2 H3 Hr. unfold indexed. rewrite contains_app, Hr. cbn [contains orb].
  rewrite Z_str_no by assumption.
  destruct (Ascii.eqb "." d) eqn:E; [apply Ascii.eqb_eq in E; congruence|reflexivity].
Qed.

Lemma indexed_clean r i : clean r -> clean (indexed r i).
Proof. intros [H1 H2]. split; apply indexed_free; auto; discriminate. Qed.

Lemma slice_form_prefix v r a b s : slice_form v r a b s -> exists t, v = r ++ t.
Proof. destruct 1; eexists; reflexivity. Qed.

Lemma denotes_clean v l : clean v -> denotes v l -> Forall clean l.
Proof.
  intros Hv H. destruct H as [c l H|c H|c root a b s idxs Hf Hs Hi].
  - cbn in H. repeat destruct H as [H|H]; try tauto; injection H as <- <-; repeat constructor.
  - now constructor.
  - apply slice_form_prefix in Hf as (t & ->). destruct Hv as [H1 H2].
    rewrite contains_app in H1, H2. apply orb_false_iff in H1 as [H1 _]. apply orb_false_iff in H2 as [H2 _].
    apply Forall_forall. intros x Hx. apply in_map_iff in Hx as (i & <- & _).
    now apply indexed_clean.
Qed.

Lemma denotes_all_clean l names : Forall clean l -> denotes_all l names -> Forall clean names.
Proof.
  intros Hl (ls & H & ->). apply Forall_concat. induction H; [constructor|].
  inversion Hl; subst. constructor; auto. eapply denotes_clean; eassumption.
Qed.

Lemma Forall2_atoms l : Forall atomic l -> Forall2 denotes l (map (fun c => [c]) l).
Proof. induction 1; cbn; constructor; auto. now constructor. Qed.

Lemma concat_singletons {A} (l : list A) : List.concat (map (fun c => [c]) l) = l.
Proof. induction l; cbn; congruence. Qed.

(** ** reading texts *)

Definition nonempty (s : string) : bool := negb (String.eqb s "").

Lemma nonempty_true s : nonempty s = true <-> s <> "".
Proof. unfold nonempty. rewrite negb_true_iff, String.eqb_neq. tauto. Qed.

Lemma read_streams_alt s : read_streams s = map (split "|") (filter nonempty (split "," s)).
Proof. reflexivity. Qed.

Lemma parse_text_In s k f :
  In (k, f) (parse_text s) <-> In k (filter nonempty (split "," s)) /\ f = mkF (split "|" k) false.
Proof.
  unfold parse_text. fold nonempty. change (filter (fun ss => negb (String.eqb ss "")) (split "," s)) with (filter nonempty (split "," s)).
  generalize (filter nonempty (split "," s)) as ks. intros ks. split.
  - intros H. apply dict_of_In in H. apply in_map_iff in H as (x & E & Hx). injection E as <- <-. auto.
  - intros [H ->].
    assert (Hk : In k (map fst (dict_of (map (fun ss => (ss, mkF (split "|" ss) false)) ks)))).
    { apply dict_of_keys. rewrite map_map. cbn. now rewrite map_id. }
    apply in_map_iff in Hk as ([k' f'] & E & Hk). cbn in E; subst k'.
    pose proof Hk as Hk2. apply dict_of_In in Hk2. apply in_map_iff in Hk2 as (x & E & Hx).
    injection E as -> <-. exact Hk.
Qed.

Lemma parse_text_NoDup s : NoDup (map fst (parse_text s)).
Proof. apply dict_of_NoDup. Qed.

Lemma pieces_clean s k : In k (split "," s) -> Forall clean (split "|" k).
Proof.
  intros H. pose proof (split_pieces "," s) as P. rewrite Forall_forall in P. specialize (P k H).
  pose proof (split_pieces "|" k) as P1. pose proof (split_pieces_sub "|" "," k P) as P2.
  rewrite Forall_forall in *. intros x Hx. split; auto.
Qed.

Lemma parse_text_streams s l :
  In l (map (fun kv => codes (snd kv)) (parse_text s)) <-> In l (read_streams s).
Proof.
  rewrite read_streams_alt, !in_map_iff. split.
  - intros ([k f] & <- & H). apply parse_text_In in H as [H ->]. cbn. eauto.
  - intros (k & <- & H). exists (k, mkF (split "|" k) false). split; [reflexivity|].
    apply parse_text_In. auto.
Qed.

Lemma parse_text_good s k f : In (k, f) (parse_text s) ->
  good f /\ Forall clean (codes f) /\ isnorm f = false.
Proof.
  intros H. apply parse_text_In in H as [H ->]. split; [intros E; discriminate|]. split; [|reflexivity].
  cbn. apply filter_In in H as [H _]. eapply pieces_clean; exact H.
Qed.

(* a stream that can be written: some code, not just one empty name *)
Definition writable (l : list string) : Prop := Forall clean l /\ l <> [] /\ l <> [""].

Lemma join_nonempty l : l <> [] -> l <> [""] -> join "|" l <> "".
Proof. intros H1 H2 E. apply join_empty in E. tauto. Qed.

Lemma split_fspec l : Forall clean l -> l <> [] -> split "|" (join "|" l) = l.
Proof.
  intros Hc Hn. apply split_join; [exact Hn|]. eapply Forall_impl; [|exact Hc]. intros a []; assumption.
Qed.

Lemma join_no_comma l : Forall clean l -> contains "," (join "|" l) = false.
Proof.
  intros H. rewrite contains_join by discriminate. induction H as [|x l [Hx _] _ IH]; [reflexivity|].
  cbn. now rewrite Hx.
Qed.

Lemma read_join (ls : list (list string)) :
  Forall writable ls -> read_streams (join "," (map (join "|") ls)) = ls.
Proof.
  intros H. destruct ls as [|l0 ls0]; [reflexivity|]. remember (l0 :: ls0) as ls eqn:E.
  rewrite read_streams_alt. rewrite split_join.
  - rewrite filter_id.
    + rewrite map_map. rewrite (map_ext_in _ (fun l => l)), map_id; [reflexivity|].
      intros l Hl. rewrite Forall_forall in H. destruct (H l Hl) as (H1 & H2 & _). now apply split_fspec.
    + intros x Hx. apply in_map_iff in Hx as (l & <- & Hl). rewrite Forall_forall in H.
      destruct (H l Hl) as (_ & H2 & H3). apply nonempty_true. now apply join_nonempty.
  - subst; discriminate.
  - apply Forall_forall. intros x Hx. apply in_map_iff in Hx as (l & <- & Hl).
    rewrite Forall_forall in H. apply join_no_comma, H, Hl.
Qed.

(* texts with possibly unwritable streams: those disappear *)
Lemma read_join_drop (ls : list (list string)) :
  Forall (Forall clean) ls -> ~ In [""] ls ->
  read_streams (join "," (map (join "|") ls)) = filter (fun l => negb (Nat.eqb (List.length l) 0)) ls.
Proof.
  intros H Hn. destruct ls as [|l0 ls0]; [reflexivity|]. remember (l0 :: ls0) as ls eqn:E.
  rewrite read_streams_alt. rewrite split_join.
  - clear E. induction ls as [|l ls IH]; [reflexivity|]. inversion H; subst. cbn [map filter].
    assert (Hn' : ~ In [""] ls) by (intros Hi; apply Hn; now right).
    destruct l as [|c l].
    + cbn. apply IH; assumption.
    + assert (nonempty (join "|" (c :: l)) = true).
      { apply nonempty_true, join_nonempty; [discriminate|]. intros E'. apply Hn. left. exact E'. }
      rewrite H0. cbn [map List.length Nat.eqb negb]. rewrite split_fspec by (assumption || discriminate).
      f_equal. apply IH; assumption.
  - subst; discriminate.
  - apply Forall_forall. intros x Hx. apply in_map_iff in Hx as (l & <- & Hl).
    rewrite Forall_forall in H. apply join_no_comma, H, Hl.
Qed.

(** ** restream *)

Section Restream.
  Context (vals : list fused).
  Hypothesis Hw : Forall (fun v => writable (codes v)) vals.
  Let d := dict_of (map (fun v => (fspec v, v)) vals).

  Lemma dict_vals_keys kv : In kv d -> fst kv = fspec (snd kv) /\ In (snd kv) vals.
  Proof.
    intros H. apply dict_of_In in H. apply in_map_iff in H as (v & <- & Hv). auto.
  Qed.

  Lemma dict_text : join "," (map fst d) = join "," (map (join "|") (map (fun kv => codes (snd kv)) d)).
  Proof.
    f_equal. rewrite map_map. apply map_ext_in. intros kv H. apply dict_vals_keys in H as [-> _]. reflexivity.
  Qed.

  Lemma dict_read : read_streams (join "," (map fst d)) = map (fun kv => codes (snd kv)) d.
  Proof.
    rewrite dict_text. apply read_join. apply Forall_forall. intros l Hl.
    apply in_map_iff in Hl as (kv & <- & H). apply dict_vals_keys in H as [_ H].
    rewrite Forall_forall in Hw. auto.
  Qed.

  Lemma dict_streams_In l : In l (map (fun kv => codes (snd kv)) d) <-> exists v, In v vals /\ codes v = l.
  Proof.
    split.
    - intros H. apply in_map_iff in H as (kv & <- & H). apply dict_vals_keys in H as [_ H]. eauto.
    - intros (v & Hv & <-). assert (Hk : In (fspec v) (map fst d)).
      { apply dict_of_keys. rewrite map_map. apply in_map_iff. exists v. split; [reflexivity|assumption]. }
      apply in_map_iff in Hk as (kv & E & Hk). apply in_map_iff. exists kv. split; [|exact Hk].
      apply dict_vals_keys in Hk as [E2 Hk]. rewrite E2 in E. unfold fspec in E.
      rewrite Forall_forall in Hw. destruct (Hw _ Hk) as (H1 & H2 & _). destruct (Hw _ Hv) as (H3 & H4 & _).
      rewrite <- (split_fspec _ H1 H2), E. now apply split_fspec.
  Qed.

  Lemma dict_streams_NoDup : NoDup (map (fun kv => codes (snd kv)) d).
  Proof.
    assert (H : NoDup (map (join "|") (map (fun kv => codes (snd kv)) d))).
    { rewrite map_map. rewrite (map_ext_in _ fst); [apply dict_of_NoDup|].
      intros kv Hkv. apply dict_vals_keys in Hkv as [-> _]. reflexivity. }
    now apply NoDup_map_inv in H.
  Qed.
End Restream.



Lemma dict_vals_writable (vals : list fused) (P : list string -> Prop) :
  Forall (fun kv => P (codes (snd kv))) (dict_of (map (fun v => (fspec v, v)) vals)) ->
  Forall (fun v => Forall clean (codes v)) vals ->
  (forall l, P l -> l <> [] /\ l <> [""]) ->
  Forall (fun v => writable (codes v)) vals.
Proof.
  intros HP Hc Himp. apply Forall_forall. intros v Hv. rewrite Forall_forall in Hc. split; [auto|].
  assert (Hk : In (fspec v) (map fst (dict_of (map (fun v => (fspec v, v)) vals)))).
  { apply dict_of_keys. rewrite map_map. apply in_map_iff. exists v. split; [reflexivity|assumption]. }
  apply in_map_iff in Hk as ([k v'] & E & Hk). rewrite Forall_forall in HP. specialize (HP _ Hk). cbn in *.
  apply Himp in HP. apply dict_of_In in Hk. apply in_map_iff in Hk as (w & E2 & Hw). injection E2 as <- <-.
  unfold fspec in E.
  pose proof (join_nonempty _ (proj1 HP) (proj2 HP)) as Hne. rewrite E in Hne.
  split; intros E0; rewrite E0 in Hne; cbn in Hne; congruence.
Qed.

Lemma cnormalize_vals s n : cnormalize (mkC s None) = Ok n ->
  exists vals, mapR (fun kv => normalize (snd kv)) (parse_text s) = Ok vals /\
    n = mkC (join "," (map fst (dict_of (map (fun v => (fspec v, v)) vals))))
            (Some (dict_of (map (fun v => (fspec v, v)) vals))) /\
    Forall (fun v => Forall clean (codes v) /\ good v /\ isnorm v = true) vals /\
    (forall l, (exists v, In v vals /\ codes v = l) <-> exists l0, In l0 (read_streams s) /\ denotes_all l0 l).
Proof.
  unfold cnormalize, restream. intros H. apply bind_ok in H as (vals & Hv & H). injection H as <-.
  change (cparse (mkC s None)) with (parse_text s) in Hv.
  exists vals. split; [exact Hv|]. split; [reflexivity|]. apply mapR_Forall2 in Hv.
  assert (HF : forall kv v, In kv (parse_text s) -> normalize (snd kv) = Ok v ->
            (Forall clean (codes v) /\ good v /\ isnorm v = true) /\ denotes_all (codes (snd kv)) (codes v)).
  { intros [k f] v Hk Hn. cbn [snd] in *. apply parse_text_good in Hk as (Hg & Hc & _).
    pose proof (normalize_names_inv _ _ Hg Hn) as Hd. split; [|exact Hd].
    split; [eapply denotes_all_clean; eassumption|]. split; [eapply normalize_good; eassumption|].
    eapply normalize_flag; eassumption. }
  split.
  - apply Forall_forall. intros v Hiv. apply In_nth_error in Hiv as (i & Hi).
    assert (G : exists kv, In kv (parse_text s) /\ normalize (snd kv) = Ok v).
    { clear -Hv Hi. revert i Hi. induction Hv as [|a b l l' Hab _ IH]; intros [|i] Hi; cbn in *; try discriminate.
      - injection Hi as ->. eauto.
      - apply IH in Hi as (kv & ? & ?). eauto. }
    destruct G as (kv & Hk & Hn). now apply HF with (kv := kv).
  - intros l. split.
    + intros (v & Hiv & <-). apply In_nth_error in Hiv as (i & Hi).
      assert (G : exists kv, In kv (parse_text s) /\ normalize (snd kv) = Ok v).
      { clear -Hv Hi. revert i Hi. induction Hv as [|a b l l' Hab _ IH]; intros [|i] Hi; cbn in *; try discriminate.
        - injection Hi as ->. eauto.
        - apply IH in Hi as (kv & ? & ?). eauto. }
      destruct G as (kv & Hk & Hn). exists (codes (snd kv)). split; [|now apply HF].
      apply parse_text_streams. apply in_map_iff. eauto.
    + intros (l0 & Hl0 & Hd). apply parse_text_streams in Hl0. apply in_map_iff in Hl0 as ([k f] & <- & Hk).
      cbn [snd] in Hd.
      pose proof (normalize_names f l (proj1 (parse_text_good _ _ _ Hk)) Hd) as Hn.
      assert (G : exists v, In v vals /\ normalize f = Ok v).
      { clear -Hv Hk. induction Hv as [|a b l l' Hab _ IH]; [destruct Hk|]. destruct Hk as [->|Hk].
        - exists b. split; [now left|exact Hab].
        - apply IH in Hk as (v & ? & ?). exists v. split; [now right|assumption]. }
      destruct G as (v & Hv2 & Hn2). exists v. split; [exact Hv2|]. rewrite Hn in Hn2. injection Hn2 as <-. reflexivity.
Qed.

Lemma cnormalize_text s n :
  cnormalize (mkC s None) = Ok n -> streams_writable n ->
  read_streams (ctext n) = cvalues n /\ NoDup (cvalues n) /\
  (forall l, In l (cvalues n) <-> exists l0, In l0 (read_streams s) /\ denotes_all l0 l).
Proof.
  intros H Hw. apply cnormalize_vals in H as (vals & Hv & -> & Hf & Hs).
  unfold streams_writable, cvalues in *. cbn [cparse cparsed ctext] in *.
  assert (HW : Forall (fun v => writable (codes v)) vals).
  { apply (dict_vals_writable vals (fun l => l <> [] /\ l <> [""])); auto.
    - now rewrite Forall_map in Hw.
    - eapply Forall_impl; [|exact Hf]. intros v (? & _). assumption. }
  split; [now apply dict_read|]. split; [apply dict_streams_NoDup; exact HW|].
  intros l. rewrite dict_streams_In by exact HW. apply Hs.
Qed.

Lemma cnormalize_idem s n : cnormalize (mkC s None) = Ok n -> cnormalize n = Ok n.
Proof.
  intros H. apply cnormalize_vals in H as (vals & Hv & -> & Hf & _).
  set (d := dict_of (map (fun v => (fspec v, v)) vals)).
  assert (Hd : forall kv, In kv d -> normalize (snd kv) = Ok (snd kv) /\ fst kv = fspec (snd kv)).
  { intros kv Hk. apply dict_of_In in Hk. apply in_map_iff in Hk as (v & <- & Hvi). cbn. split; [|reflexivity].
    rewrite Forall_forall in Hf. destruct (Hf v Hvi) as (_ & _ & E). unfold normalize. now rewrite E. }
  unfold cnormalize, restream. cbn [cparse cparsed].
  assert (E : mapR (fun kv : string * fused => normalize (snd kv)) d = Ok (map snd d)).
  { clear -Hd. induction d as [|kv d IH]; [reflexivity|]. cbn.
    rewrite (proj1 (Hd kv (or_introl eq_refl))). cbn. rewrite IH; [reflexivity|]. intros; apply Hd; now right. }
  rewrite E. cbn [bind].
  assert (E2 : map (fun v => (fspec v, v)) (map snd d) = d).
  { rewrite map_map. rewrite (map_ext_in _ (fun kv => kv)); [apply map_id|]. intros [k v] Hk.
    destruct (Hd _ Hk) as [_ E2]. cbn in *. now rewrite E2. }
  rewrite E2. rewrite (dict_of_id d); [reflexivity|]. apply dict_of_NoDup.
Qed.

Lemma cnormalize_retext s n :
  cnormalize (mkC s None) = Ok n -> streams_writable n ->
  exists n', cnormalize (mkC (ctext n) None) = Ok n' /\ ctext n' = ctext n /\ cvalues n' = cvalues n.
Proof.
  intros H Hw. destruct (cnormalize_text _ _ H Hw) as (Hr & Hnd & _).
  apply cnormalize_vals in H as (vals & Hv & -> & Hf & _).
  set (d := dict_of (map (fun v => (fspec v, v)) vals)) in *.
  unfold cvalues in *. cbn [cparse cparsed ctext] in *.
  assert (Hd : forall kv, In kv d -> fst kv = fspec (snd kv) /\ Forall atomic (codes (snd kv)) /\ isnorm (snd kv) = true).
  { intros kv Hk. apply dict_of_In in Hk. apply in_map_iff in Hk as (v & <- & Hvi). cbn. split; [reflexivity|].
    rewrite Forall_forall in Hf. destruct (Hf v Hvi) as (_ & Hg & E). split; auto. }
  assert (Hp : parse_text (join "," (map fst d)) = map (fun kv => (fst kv, mkF (codes (snd kv)) false)) d).
  { unfold parse_text. destruct d as [|kv0 d0] eqn:Ed; [reflexivity|]. rewrite <- Ed in *.
    assert (Hkeys : forall k, In k (map fst d) -> k <> "" /\ contains "," k = false).
    { intros k Hk. apply in_map_iff in Hk as (kv & <- & Hk). destruct (Hd _ Hk) as (E & _).
      unfold streams_writable, cvalues in Hw. cbn in Hw. rewrite Forall_map, Forall_forall in Hw.
      destruct (Hw _ Hk) as [H1 H2]. rewrite E. split; [now apply join_nonempty|].
      apply dict_of_In in Hk. apply in_map_iff in Hk as (v & <- & Hvi). apply join_no_comma.
      rewrite Forall_forall in Hf. now destruct (Hf _ Hvi). }
    rewrite split_join.
    - rewrite filter_id.
      + rewrite map_map. rewrite dict_of_id.
        * apply map_ext_in. intros kv Hk. f_equal. f_equal. destruct (Hd _ Hk) as (E & _). rewrite E.
          unfold streams_writable, cvalues in Hw. cbn in Hw. rewrite Forall_map, Forall_forall in Hw.
          destruct (Hw _ Hk) as [H1 H2]. apply split_fspec; [|exact H1].
          apply dict_of_In in Hk. apply in_map_iff in Hk as (v & <- & Hvi).
          rewrite Forall_forall in Hf. now destruct (Hf _ Hvi).
        * rewrite map_map. cbn. apply dict_of_NoDup.
      + intros k Hk. apply nonempty_true. now apply Hkeys.
    - rewrite Ed. discriminate.
    - apply Forall_forall. intros k Hk. now apply Hkeys. }
  unfold cnormalize, restream. change (cparse (mkC (join "," (map fst d)) None)) with (parse_text (join "," (map fst d))).
  rewrite Hp. rewrite mapR_map.
  assert (E : mapR (fun kv : string * fused => normalize (snd (fst kv, mkF (codes (snd kv)) false))) d = Ok (map snd d)).
  { clear -Hd. induction d as [|kv d IH]; [reflexivity|]. cbn [mapR].
    destruct (Hd kv (or_introl eq_refl)) as (_ & H2 & H3).
    cbn [snd] in IH |- *. rewrite normalize_atomic_id by exact H2. cbn [bind]. rewrite IH by (intros; apply Hd; now right).
    cbn. do 2 f_equal. destruct kv as [k [c b]]. cbn in *. congruence. }
  rewrite E. cbn [bind].
  assert (E2 : map (fun v => (fspec v, v)) (map snd d) = d).
  { rewrite map_map. rewrite (map_ext_in _ (fun kv => kv)); [apply map_id|]. intros [k v] Hk.
    destruct (Hd _ Hk) as [E2 _]. cbn in *. now rewrite E2. }
  rewrite E2. rewrite (dict_of_id d) by apply dict_of_NoDup.
  eexists. split; [reflexivity|]. split; reflexivity.
Qed.

(** ** stream-wise algebra *)

Lemma fparse_codes k : codes (fparse k) = if String.eqb k "" then [] else split "|" k.
Proof. unfold fparse. destruct (String.eqb k ""); reflexivity. Qed.

Lemma cfuse_codes s : codes (cfuse (mkC s None)) = List.concat (read_streams s) /\ good (cfuse (mkC s None)).
Proof.
  assert (E : List.concat (map codes (cstreams (mkC s None))) = List.concat (read_streams s)).
  { unfold cstreams, ckeys. cbn [ctext]. rewrite read_streams_alt. induction (split "," s) as [|k ks IH]; [reflexivity|].
    cbn [map List.concat filter]. rewrite IH. rewrite fparse_codes. unfold nonempty.
    destruct (String.eqb k ""); reflexivity. }
  assert (G : forall p, In p (cstreams (mkC s None)) -> good p).
  { intros p Hp Hn. unfold cstreams in Hp. apply in_map_iff in Hp as (k & <- & _).
    unfold fparse in Hn. destruct (String.eqb k ""); discriminate. }
  unfold cfuse. destruct (cstreams (mkC s None)) as [|p [|q ps]].
  - split; [exact E|]. intros H; discriminate.
  - cbn in E. rewrite app_nil_r in E. split; [exact E|]. apply G. now left.
  - split; [exact E|]. intros H; discriminate.
Qed.

Lemma filter_nil_length (ls : list fused) :
  map codes (filter (fun f => negb (Nat.eqb (List.length (codes f)) 0)) ls) =
  filter (fun l => negb (Nat.eqb (List.length l) 0)) (map codes ls).
Proof.
  induction ls as [|f ls IH]; [reflexivity|]. cbn. destruct (Nat.eqb (List.length (codes f)) 0); cbn; now rewrite IH.
Qed.

Lemma per_stream_spec (op : fused -> operand -> result fused) (R : list string -> list string -> list string -> Prop) s t n B :
  (forall f g A, good f -> good g -> denotes_all (codes f) A -> denotes_all (codes g) B ->
     exists d, op f (OpSpec g) = Ok d /\ good d /\ R A B (codes d) /\ (forall c, In c (codes d) -> In c A)) ->
  cnormalize (mkC s None) = Ok n ->
  denotes_all (List.concat (read_streams t)) B ->
  Forall (fun l => ~ In "" l) (cvalues n) ->
  exists d ds, per_stream op (mkC s None) (mkC t None) = Ok d /\
    Forall2 (fun l dl => R l B dl) (cvalues n) ds /\
    read_streams (ctext d) = filter (fun l => negb (Nat.eqb (List.length l) 0)) ds.
Proof.
  intros Hop Hn HB He. unfold per_stream. rewrite Hn. cbn [bind].
  destruct (cfuse_codes t) as [Hc Hg]. rewrite <- Hc in HB.
  rewrite (normalize_names _ _ Hg HB).
  apply cnormalize_vals in Hn as (vals & Hv & -> & Hf & _). unfold cvalues in *. cbn [cparse cparsed] in *.
  set (d := dict_of (map (fun v => (fspec v, v)) vals)) in *.
  assert (Hd : forall kv, In kv d -> good (snd kv) /\ Forall clean (codes (snd kv)) /\ isnorm (snd kv) = true).
  { intros kv Hk. apply dict_of_In in Hk. apply in_map_iff in Hk as (v & <- & Hvi).
    rewrite Forall_forall in Hf. destruct (Hf v Hvi) as (? & ? & ?). auto. }
  assert (HBat : Forall atomic B) by (eapply denotes_all_atomic; exact HB).
  assert (HBB : denotes_all (codes (mkF B true)) B).
  { exists (map (fun c => [c]) B). split; [apply Forall2_atoms; assumption|]. now rewrite concat_singletons. }
  assert (E : exists news, mapR (fun kv : string * fused => op (snd kv) (OpSpec (mkF B true))) d = Ok news /\
      Forall2 (fun l dl => R l B dl) (map (fun kv => codes (snd kv)) d) (map codes news) /\
      Forall (Forall clean) (map codes news) /\ ~ In [""] (map codes news)).
  { clear Hv. induction d as [|kv d IH].
    - exists []. repeat split; cbn; auto.
    - destruct IH as (news & E & H2 & H3 & H4).
      { now inversion He. } { intros; apply Hd; now right. }
      destruct (Hd kv (or_introl eq_refl)) as (Hg1 & Hc1 & Hn1).
      assert (Hat : Forall atomic (codes (snd kv))) by auto.
      assert (HA : denotes_all (codes (snd kv)) (codes (snd kv))).
      { exists (map (fun c => [c]) (codes (snd kv))). split; [apply Forall2_atoms; assumption|]. now rewrite concat_singletons. }
      destruct (Hop (snd kv) (mkF B true) (codes (snd kv)) Hg1 (good_atomic _ HBat) HA HBB) as (dd & E1 & _ & R1 & I1).
      exists (dd :: news). cbn. rewrite E1. cbn [bind]. rewrite E. cbn. split; [reflexivity|].
      split; [now constructor|]. split.
      + constructor; [|exact H3]. eapply Forall_incl; [|exact Hc1]. exact I1.
      + intros [Hi|Hi]; [|tauto]. inversion He as [|? ? Hx _]; subst. apply Hx, I1. rewrite Hi. now left. }
  destruct E as (news & E & H2 & H3 & H4). rewrite E. cbn [bind].
  exists (mkC (join "," (map fspec (filter (fun f => negb (Nat.eqb (List.length (codes f)) 0)) news))) None), (map codes news).
  split; [reflexivity|]. split; [exact H2|]. cbn [ctext].
  assert (Em : map fspec (filter (fun f => negb (Nat.eqb (List.length (codes f)) 0)) news) =
               map (join "|") (filter (fun l => negb (Nat.eqb (List.length l) 0)) (map codes news))).
  { rewrite <- filter_nil_length, map_map. reflexivity. }
  rewrite Em. apply read_join. apply Forall_forall. intros l Hl. apply filter_In in Hl as [Hl1 Hl2].
  rewrite Forall_forall in H3. split; [auto|]. split.
  - intros ->. discriminate.
  - intros ->. tauto.
Qed.

Lemma cdifference_spec s t n B :
  cnormalize (mkC s None) = Ok n -> denotes_all (List.concat (read_streams t)) B ->
  Forall (fun l => ~ In "" l) (cvalues n) ->
  exists d ds, cdifference (mkC s None) (mkC t None) = Ok d /\
    Forall2 (fun l dl => (forall c, In c dl <-> In c l /\ ~ In c B) /\ NoDup dl /\ subseq dl l) (cvalues n) ds /\
    read_streams (ctext d) = filter (fun l => negb (Nat.eqb (List.length l) 0)) ds.
Proof.
  apply (per_stream_spec difference
    (fun l B dl => (forall c, In c dl <-> In c l /\ ~ In c B) /\ NoDup dl /\ subseq dl l)).
  intros f g A Hf Hg HA HB. destruct (difference_spec f g A B Hf Hg HA HB) as (d & H1 & H2 & H3 & H4 & H5).
  exists d. repeat (split; [assumption|]). split; [auto|]. intros c Hc. now apply H3.
Qed.

Lemma cintersection_spec s t n B :
  cnormalize (mkC s None) = Ok n -> denotes_all (List.concat (read_streams t)) B ->
  Forall (fun l => ~ In "" l) (cvalues n) ->
  exists d ds, cintersection (mkC s None) (mkC t None) = Ok d /\
    Forall2 (fun l dl => (forall c, In c dl <-> In c l /\ In c B) /\ subseq dl l) (cvalues n) ds /\
    read_streams (ctext d) = filter (fun l => negb (Nat.eqb (List.length l) 0)) ds.
Proof.
  apply (per_stream_spec intersection
    (fun l B dl => (forall c, In c dl <-> In c l /\ In c B) /\ subseq dl l)).
  intros f g A Hf Hg HA HB. destruct (intersection_spec f g A B Hf Hg HA HB) as (d & H1 & H2 & H3 & H4 & _).
  exists d. repeat (split; [assumption|]). split; [auto|]. intros c Hc. now apply H3.
Qed.

Lemma cunion_spec s t n m :
  cnormalize (mkC s None) = Ok n -> cnormalize (mkC t None) = Ok m ->
  streams_writable n -> streams_writable m ->
  exists u, cunion (mkC s None) (mkC t None) = Ok u /\
    read_streams (ctext u) = (cvalues n ++ cvalues m)%list.
Proof.
  intros Hn Hm Wn Wm. unfold cunion. rewrite Hn, Hm. cbn [bind]. eexists. split; [reflexivity|]. cbn [ctext].
  assert (E : map (fun kv : string * fused => fspec (snd kv)) (cparse n ++ cparse m) = map (join "|") (cvalues n ++ cvalues m)).
  { unfold cvalues. rewrite <- map_app, map_map. reflexivity. }
  rewrite E. apply read_join.
  assert (G : forall s n, cnormalize (mkC s None) = Ok n -> streams_writable n -> Forall writable (cvalues n)).
  { clear. intros s n Hn Wn. apply cnormalize_vals in Hn as (vals & _ & -> & Hf & _).
    unfold streams_writable, cvalues in *. cbn [cparse cparsed] in *. rewrite Forall_map in Wn |- *.
    rewrite Forall_forall in *. intros kv Hk. specialize (Wn kv Hk). destruct Wn. split; [|auto].
    apply dict_of_In in Hk. apply in_map_iff in Hk as (v & <- & Hv). now destruct (Hf v Hv). }
  apply Forall_app. split; eapply G; eassumption.
Qed.

(** ** fuse, split, numel *)

Lemma fuse_names s names :
  denotes_all (List.concat (read_streams s)) names ->
  normalize (cfuse (mkC s None)) = Ok (mkF names true).
Proof.
  intros H. destruct (cfuse_codes s) as [Hc Hg]. apply normalize_names; [exact Hg|]. now rewrite Hc.
Qed.

Lemma denotes_all_app a b x y : denotes_all a x -> denotes_all b y -> denotes_all (a ++ b) (x ++ y).
Proof.
  intros (la & Ha & ->) (lb & Hb & ->). exists (la ++ lb)%list. split; [now apply Forall2_app|].
  now rewrite concat_app.
Qed.

Lemma denotes_all_app_inv a b z : denotes_all (a ++ b) z ->
  exists x y, z = (x ++ y)%list /\ denotes_all a x /\ denotes_all b y.
Proof.
  intros (ls & H & ->). apply Forall2_app_inv_l in H as (la & lb & Ha & Hb & ->).
  exists (List.concat la), (List.concat lb). rewrite concat_app. repeat split; eexists; split; eauto.
Qed.

Lemma fparse_good k : good (fparse k).
Proof. unfold fparse. intros H. destruct (String.eqb k ""); discriminate. Qed.

Lemma csplit_spec s names :
  denotes_all (List.concat (read_streams s)) names -> ~ In "" names ->
  exists c, csplit (mkC s None) = Ok c /\ read_streams (ctext c) = map (fun x => [x]) names.
Proof.
  intros H He. unfold csplit, cstreams, ckeys. cbn [ctext].
  rewrite read_streams_alt in H.
  pose proof (split_pieces "," s) as Hp.
  assert (Hcl : forall k, In k (split "," s) -> Forall clean (split "|" k)) by (intros; eapply pieces_clean; eassumption).
  assert (G : exists l, mapR fsplit (map fparse (split "," s)) = Ok l /\
     filter nonempty (split "," (join "," (map ctext l))) = names /\
     (split "," s <> [] -> l <> []) /\ Forall clean names).
  { clear Hp. revert names H He. generalize dependent (split "," s). intros ks Hcl.
    induction ks as [|k ks IH]; intros names H He.
    - exists []. cbn in H. destruct H as (ls & H & ->). inversion H; subst. cbn.
      split; [reflexivity|]. split; [reflexivity|]. split; [tauto|constructor].
    - cbn [filter map] in H.
      assert (Hd : exists x y, names = (x ++ y)%list /\ denotes_all (codes (fparse k)) x /\
                 denotes_all (List.concat (map (split "|") (filter nonempty ks))) y).
      { rewrite fparse_codes. unfold nonempty in H at 1. destruct (String.eqb k "") eqn:Ek; cbn [negb map List.concat] in H.
        - exists [], names. split; [reflexivity|]. split; [|exact H]. exists []. split; [constructor|reflexivity].
        - apply denotes_all_app_inv in H as (x & y & -> & H1 & H2). eauto. }
      destruct Hd as (x & y & -> & Hx & Hy).
      destruct (IH ltac:(intros; apply Hcl; now right) y Hy) as (l & E & El & Hne & Hcy).
      { intros Hi. apply He. apply in_or_app. now right. }
      cbn [map mapR]. unfold fsplit at 1. rewrite (normalize_names _ x (fparse_good k) Hx). cbn [bind].
      rewrite E. cbn [bind codes]. eexists. split; [reflexivity|].
      assert (Hcx : Forall clean x).
      { eapply denotes_all_clean; [|exact Hx]. rewrite fparse_codes. destruct (String.eqb k ""); [constructor|]. apply Hcl. now left. }
      assert (Hex : ~ In "" x) by (intros Hi; apply He; apply in_or_app; now left).
      assert (Hsx : filter nonempty (split "," (join "," x)) = x).
      { destruct x as [|c x]; [reflexivity|]. rewrite split_join; [|discriminate|].
        - apply filter_id. intros z Hz. apply nonempty_true. intros ->. tauto.
        - eapply Forall_impl; [|exact Hcx]. intros ? []; assumption. }
      split; [|split; [discriminate|apply Forall_app; auto]].
      cbn [map ctext]. destruct l as [|c0 l].
      + cbn [map join]. cbn in El. rewrite Hsx. rewrite <- El. now rewrite app_nil_r.
      + rewrite join_cons by discriminate. rewrite split_app_gen, filter_app, Hsx, El. reflexivity. }
  destruct G as (l & E & El & _ & Hcn). rewrite E. cbn [bind]. eexists. split; [reflexivity|].
  rewrite read_streams_alt. cbn [ctext]. rewrite El. apply map_ext_in. intros c Hc.
  rewrite Forall_forall in Hcn. apply split_no_sep. apply Hcn, Hc.
Qed.

(* numel of a text spec with distinct streams *)
Lemma parse_text_distinct s : NoDup (read_streams s) ->
  map (fun kv => codes (snd kv)) (parse_text s) = read_streams s.
Proof.
  intros H. unfold parse_text. rewrite read_streams_alt in *.
  change (filter (fun ss => negb (String.eqb ss "")) (split "," s)) with (filter nonempty (split "," s)).
  apply NoDup_map_inv in H. rewrite dict_of_id.
  - rewrite map_map. reflexivity.
  - rewrite map_map. cbn. now rewrite map_id.
Qed.

Lemma numel_names f names : good f -> denotes_all (codes f) names -> numel f = Ok (Z.of_nat (List.length names)).
Proof. intros Hg H. rewrite numel_normalize by assumption. now rewrite (normalize_names f names). Qed.

Lemma cnumel_names s names : NoDup (read_streams s) ->
  denotes_all (List.concat (read_streams s)) names ->
  cnumel (mkC s None) = Ok (Z.of_nat (List.length names)).
Proof.
  intros Hnd H. unfold cnumel, csizes. change (cparse (mkC s None)) with (parse_text s).
  pose proof (parse_text_distinct s Hnd) as E. rewrite <- E in H.
  assert (Hg : forall k f, In (k, f) (parse_text s) -> good f) by (intros k f Hk; eapply parse_text_good; exact Hk).
  clear E Hnd. revert names H. induction (parse_text s) as [|[k f] p IH]; intros names H.
  - destruct H as (ls & H & ->). inversion H; subst. reflexivity.
  - cbn [map List.concat snd] in H. apply denotes_all_app_inv in H as (x & y & -> & Hx & Hy).
    specialize (IH ltac:(intros k' f' Hk; apply (Hg k'); now right) y Hy).
    cbn [mapR snd]. rewrite (numel_names f x) by (assumption || (apply (Hg k); now left)). cbn [bind].
    destruct (mapR (fun kv : string * fused => numel (snd kv)) p) as [zs|e]; cbn [bind] in IH |- *; [|discriminate].
    injection IH as IH. cbn [zsum fold_right]. unfold zsum in IH. rewrite IH, app_length. f_equal. lia.
Qed.

(** ** late fusion *)

Lemma read_streams_app a b : read_streams (a ++ String "," b) = (read_streams a ++ read_streams b)%list.
Proof. rewrite !read_streams_alt, split_app_gen, filter_app, map_app. reflexivity. Qed.

Lemma late_fuse_streams a b :
  read_streams (btext (late_fuse a b)) = (read_streams (btext a) ++ read_streams (btext b))%list.
Proof.
  unfold late_fuse. destruct (String.eqb_spec (btext a) "") as [E|Ha]; [now rewrite E|].
  destruct (String.eqb_spec (btext b) "") as [E|Hb]; [rewrite E; cbn; now rewrite app_nil_r|].
  cbn [btext ctext]. apply read_streams_app.
Qed.

Lemma btext_late_fuse a b :
  btext (late_fuse a b) = if String.eqb (btext a) "" then btext b
                          else if String.eqb (btext b) "" then btext a
                          else btext a ++ String "," (btext b).
Proof. unfold late_fuse. destruct (String.eqb (btext a) ""); [reflexivity|]. destruct (String.eqb (btext b) ""); reflexivity. Qed.

Lemma app_string_nonempty a c b : String.eqb (a ++ String c b) "" = false.
Proof. destruct a; reflexivity. Qed.

Lemma late_fuse_assoc a b c : btext (late_fuse a (late_fuse b c)) = btext (late_fuse (late_fuse a b) c).
Proof.
  rewrite !btext_late_fuse.
  destruct (String.eqb (btext a) "") eqn:Ea; [reflexivity|].
  destruct (String.eqb (btext b) "") eqn:Eb.
  - rewrite Ea. destruct (String.eqb (btext c) ""); reflexivity.
  - destruct (String.eqb (btext c) "") eqn:Ec.
    + rewrite Eb. rewrite app_string_nonempty. reflexivity.
    + rewrite !app_string_nonempty. now rewrite <- app_assoc_s.
Qed.

Lemma spec_sum_streams l b :
  spec_sum l = Some b -> read_streams (btext b) = List.concat (map (fun x => read_streams (btext x)) l).
Proof.
  destruct l as [|x l]; cbn; [discriminate|]. intros H; injection H as <-.
  assert (G : forall l x, read_streams (btext (fold_left late_fuse l x)) =
            (read_streams (btext x) ++ List.concat (map (fun x => read_streams (btext x)) l))%list).
  { clear. induction l as [|y l IH]; intros x; cbn; [now rewrite app_nil_r|].
    rewrite IH, late_fuse_streams. now rewrite app_assoc. }
  apply G.
Qed.

(** ** component indices *)

Lemma comp_loop_fresh key l : forall i d,
  NoDup (map fst l) -> (forall p, In p (map fst l) -> ~ In p (map fst d)) ->
  comp_loop key i l d =
  (d ++ map (fun pr => (fst pr, (key, snd pr))) (combine (map fst l) (tile i (map snd l))))%list.
Proof.
  induction l as [|[p sz] l IH]; intros i d Hnd Hf; cbn [comp_loop map combine tile fst snd].
  - now rewrite app_nil_r.
  - inversion Hnd as [|? ? Hp Hl]; subst. rewrite dict_set_new by (apply Hf; now left).
    rewrite IH; [|exact Hl|].
    + rewrite <- app_assoc. reflexivity.
    + intros q Hq. rewrite map_app, in_app_iff. cbn. intros [H|[->|[]]]; [|tauto].
      eapply Hf; [right; exact Hq|exact H].
Qed.

Definition stream_layout (kv : string * fused) (szs : list Z) : list (string * (string * (Z * Z))) :=
  map (fun pr => (fst pr, (fst kv, snd pr))) (combine (codes (snd kv)) (tile 0 szs)).

Lemma comp_streams_fresh p : forall szss d,
  Forall2 (fun kv szs => sizes (snd kv) = Ok szs) p szss ->
  NoDup (List.concat (map (fun kv => codes (snd kv)) p)) ->
  (forall c, In c (List.concat (map (fun kv => codes (snd kv)) p)) -> ~ In c (map fst d)) ->
  (forall kv szs, In kv p -> sizes (snd kv) = Ok szs -> List.length szs = List.length (codes (snd kv))) ->
  comp_streams p d = Ok (d ++ List.concat (map (fun ks => stream_layout (fst ks) (snd ks)) (combine p szss)))%list.
Proof.
  induction p as [|[k f] p IH]; intros szss d HF Hnd Hfresh Hlen; inversion HF as [|? szs ? szss' Hs HF']; subst.
  - cbn. now rewrite app_nil_r.
  - cbn [comp_streams]. cbn [snd] in Hs. rewrite Hs. cbn [bind].
    pose proof (Hlen (k, f) szs (or_introl eq_refl) Hs) as Hl. cbn [snd] in Hl.
    assert (Ef : map fst (combine (codes f) szs) = codes f).
    { clear -Hl. revert szs Hl. induction (codes f) as [|c l IH]; intros [|z szs] H; cbn in *; try discriminate; [reflexivity|].
      rewrite IH; [reflexivity|lia]. }
    assert (Es : map snd (combine (codes f) szs) = szs).
    { clear -Hl. revert szs Hl. induction (codes f) as [|c l IH]; intros [|z szs] H; cbn in *; try discriminate; [reflexivity|].
      rewrite IH; [reflexivity|lia]. }
    cbn [map List.concat snd] in Hnd, Hfresh.
    assert (Hnd1 : NoDup (codes f)).
    { clear -Hnd. induction (codes f) as [|c l IH]; [constructor|]. inversion Hnd; subst. constructor; auto.
      intros Hc. apply H1. apply in_or_app. now left. }
    assert (Hnd2 : NoDup (List.concat (map (fun kv : string * fused => codes (snd kv)) p))).
    { clear -Hnd. induction (codes f) as [|c l IH]; [exact Hnd|]. inversion Hnd; subst. auto. }
    assert (Hdis : forall c, In c (codes f) -> ~ In c (List.concat (map (fun kv : string * fused => codes (snd kv)) p))).
    { clear -Hnd. induction (codes f) as [|x l IH]; [intros c []|]. inversion Hnd; subst. intros c [->|Hc] Hp.
      - apply H1. apply in_or_app. now right.
      - eapply IH; eassumption. }
    rewrite comp_loop_fresh.
    + rewrite Ef, Es. rewrite (IH szss'); auto.
      * cbn [combine map List.concat]. unfold stream_layout at 2. cbn [fst snd]. now rewrite app_assoc.
      * intros c Hc. rewrite map_app, in_app_iff. rewrite map_map. cbn [fst].
        intros [H|H]; [eapply Hfresh; [apply in_or_app; right; exact Hc|exact H]|].
        apply in_map_iff in H as ([c' r] & E & H). cbn in E; subst c'. apply in_combine_l in H.
        eapply Hdis; eassumption.
      * intros kv szs' Hk. apply Hlen. now right.
    + rewrite Ef. exact Hnd1.
    + rewrite Ef. intros c Hc. apply Hfresh. apply in_or_app. now left.
Qed.

Lemma sizes_length f szs : sizes f = Ok szs -> List.length szs = List.length (codes f).
Proof.
  unfold sizes. destruct (isnorm f); intros H.
  - injection H as <-. now rewrite map_length.
  - eapply mapR_length; eassumption.
Qed.

Lemma sizes_widths f szs : good f -> sizes f = Ok szs ->
  Forall2 (fun c z => exists l, denotes c l /\ z = Z.of_nat (List.length l)) (codes f) szs.
Proof.
  intros Hg H. rewrite sizes_spec in H by assumption.
  destruct (mapR expand (codes f)) as [ls|] eqn:E; [|discriminate]. cbn in H. injection H as <-.
  apply mapR_Forall2 in E. induction E; cbn; constructor; auto. eexists. split; [|reflexivity].
  now apply expand_denotes.
Qed.

Lemma component_indices_spec s names :
  NoDup (List.concat (read_streams s)) -> NoDup (read_streams s) ->
  denotes_all (List.concat (read_streams s)) names ->
  exists d szss, component_indices (mkC s None) = Ok d /\
    Forall2 (fun l szs => Forall2 (fun c z => exists ns, denotes c ns /\ z = Z.of_nat (List.length ns)) l szs)
            (read_streams s) szss /\
    d = List.concat (map (fun ks => map (fun pr => (fst pr, (join "|" (fst ks), snd pr)))
                                        (combine (fst ks) (tile 0 (snd ks))))
                         (combine (read_streams s) szss)).
Proof.
  intros Hnd Hnds Hden. unfold component_indices. change (cparse (mkC s None)) with (parse_text s).
  pose proof (parse_text_distinct s Hnds) as E.
  assert (Hg : forall k f, In (k, f) (parse_text s) -> good f /\ k = join "|" (codes f)).
  { intros k f Hk. split; [eapply parse_text_good; exact Hk|]. apply parse_text_In in Hk as [_ ->].
    cbn. symmetry. apply join_split. }
  assert (Hs : exists szss, Forall2 (fun kv szs => sizes (snd kv) = Ok szs) (parse_text s) szss).
  { rewrite <- E in Hden. clear -Hden Hg. revert names Hden. induction (parse_text s) as [|[k f] p IH]; intros names Hden.
    - exists []. constructor.
    - cbn [map List.concat snd] in Hden. apply denotes_all_app_inv in Hden as (x & y & -> & Hx & Hy).
      destruct (IH ltac:(intros k' f' Hk; apply Hg; now right) y Hy) as (szss & HF).
      pose proof (numel_names f x (proj1 (Hg k f (or_introl eq_refl))) Hx) as Hn.
      rewrite numel_sum_sizes in Hn by (apply (Hg k f); now left).
      destruct (sizes f) as [szs|] eqn:Es; [|discriminate]. exists (szs :: szss). now constructor. }
  destruct Hs as (szss & HF).
  rewrite (comp_streams_fresh _ szss []); auto.
  - eexists _, szss. split; [reflexivity|]. rewrite <- E. split.
    + clear -HF Hg. induction HF as [|[k f] szs p szss Hs HF IH]; cbn; constructor.
      * apply sizes_widths; [apply (Hg k f); now left|exact Hs].
      * apply IH. intros k' f' Hk. apply Hg. now right.
    + cbn [app]. clear -HF Hg. induction HF as [|[k f] szs p szss Hs HF IH]; [reflexivity|].
      cbn [map combine List.concat fst snd]. rewrite IH by (intros k' f' Hk; apply Hg; now right).
      f_equal. unfold stream_layout. cbn [fst snd]. destruct (Hg k f (or_introl eq_refl)) as [_ ->]. reflexivity.
  - rewrite E. exact Hnd.
  - intros kv szs _ H. eapply sizes_length; exact H.
Qed.

(** ** coerce cache *)

Definition memo_ok (m : memo) : Prop :=
  (forall s f, memo_get (KStr s) m = Some f -> f = fparse s) /\
  (forall n f, memo_get (KNum n) m = Some f -> f = mkF (from_int_codes n) false).

Lemma memo_ok_nil : memo_ok []. Proof. split; intros; discriminate. Qed.

Lemma from_spec_ok m s : memo_ok m -> fst (from_spec m s) = fparse s /\ memo_ok (snd (from_spec m s)).
Proof.
  intros (H1 & H2). unfold from_spec. destruct (memo_get (KStr s) m) as [f|] eqn:E; cbn.
  - split; [now apply H1|split; assumption].
  - split; [reflexivity|]. split; cbn; [|exact H2]. intros s' f. destruct (String.eqb_spec s' s) as [->|]; auto. congruence.
Qed.

Lemma from_int_ok m n : memo_ok m -> fst (from_int m n) = mkF (from_int_codes n) false /\ memo_ok (snd (from_int m n)).
Proof.
  intros (H1 & H2). unfold from_int. destruct (memo_get (KNum n) m) as [f|] eqn:E; cbn.
  - split; [now apply H2|split; assumption].
  - split; [reflexivity|]. split; cbn; [exact H1|]. intros n' f. destruct (Z.eqb_spec n' n) as [->|]; auto. congruence.
Qed.



Lemma coerce_ok m d : memo_ok m -> memo_ok (snd (coerce m d)) /\
  (not_float d -> fst (coerce m d) = coerce_fresh d).
Proof.
  intros Hm. pose proof Hm as (H1 & H2). unfold coerce_fresh, coerce.
  destruct d as [l|s|f|c|z|b|z| |]; cbn [key_of].
  - cbn. auto.
  - destruct (memo_get (KStr s) m) as [f|] eqn:E; cbn.
    + split; [exact Hm|]. intros _. f_equal. now apply H1.
    + destruct (from_spec m s) as [f m'] eqn:Ef. pose proof (from_spec_ok m s Hm) as [G1 G2]. rewrite Ef in *. cbn in *.
      split; [exact G2|]. intros _. now rewrite G1.
  - cbn. auto.
  - cbn. destruct (cparse c) as [|[? ?] [|? ?]]; cbn; auto.
  - destruct (memo_get (KNum z) m) as [f|] eqn:E; cbn.
    + split; [exact Hm|]. intros _. f_equal. now apply H2.
    + destruct (from_int m z) as [f m'] eqn:Ef. pose proof (from_int_ok m z Hm) as [G1 G2]. rewrite Ef in *. cbn in *.
      split; [exact G2|]. intros _. now rewrite G1.
  - set (z := if b then 1%Z else 0%Z). destruct (memo_get (KNum z) m) as [f|] eqn:E; cbn.
    + split; [exact Hm|]. intros _. f_equal. now apply H2.
    + destruct (from_int m z) as [f m'] eqn:Ef. pose proof (from_int_ok m z Hm) as [G1 G2]. rewrite Ef in *. cbn in *.
      split; [exact G2|]. intros _. now rewrite G1.
  - split.
    + destruct (memo_get (KNum z) m); exact Hm.
    + intros H. exfalso. now apply (H z).
  - cbn. auto.
  - cbn. auto.
Qed.

Lemma memo_steps_ok ops : forall m, memo_ok m -> memo_ok (fold_left memo_step ops m).
Proof.
  induction ops as [|o ops IH]; intros m Hm; cbn; [exact Hm|]. apply IH.
  destruct o; cbn; [now apply coerce_ok|now apply from_spec_ok|now apply from_int_ok].
Qed.

(** ** path sanitizing *)


Lemma replace_gone k v s : contains k v = false -> contains k (replace_char k v s) = false.
Proof.
  intros Hv. induction s as [|a s IH]; cbn; [reflexivity|]. destruct (Ascii.eqb a k) eqn:E.
  - now rewrite contains_app, Hv, IH.
  - cbn. now rewrite E, IH.
Qed.

Lemma replace_keeps c k v s : contains c v = false -> contains c s = false -> contains c (replace_char k v s) = false.
Proof.
  intros Hv. induction s as [|a s IH]; cbn; [reflexivity|]. intros H. apply orb_false_iff in H as [Ha Hs].
  destruct (Ascii.eqb a k).
  - now rewrite contains_app, Hv, IH.
  - cbn. now rewrite Ha, IH.
Qed.

Lemma sanitize_gone path c : In c illegal ->
  contains c (fold_left (fun s kv => replace_char (fst kv) (snd kv) s) illegal_map path) = false.
Proof.
  intros H. unfold illegal_map. cbn [fold_left fst snd].
  cbn in H. repeat destruct H as [<-|H]; try tauto;
    repeat first [apply replace_gone; reflexivity | apply replace_keeps; [reflexivity|]].
Qed.

Lemma last_char_app a b : b <> "" -> last_char (a ++ b) = last_char b.
Proof.
  intros Hb. induction a as [|c a IH]; [reflexivity|]. cbn [append last_char].
  destruct (a ++ b) eqn:E; [|rewrite <- E in *; exact IH]. destruct a; cbn in E; congruence.
Qed.

Lemma lower_substring n m s : lower_only s = true -> lower_only (substring n m s) = true.
Proof.
  revert n m; induction s as [|c s IH]; intros n m H.
  - destruct n, m; reflexivity.
  - cbn in H. apply andb_true_iff in H as [Hc Hs]. destruct n as [|n]; cbn.
    + destruct m as [|m]; [reflexivity|]. cbn. rewrite Hc. cbn. now apply IH.
    + now apply IH.
Qed.

Lemma lower_contains c s : (N_of_ascii c < 97)%N \/ (122 < N_of_ascii c)%N ->
  lower_only s = true -> contains c s = false.
Proof.
  intros Hc. induction s as [|a s IH]; cbn; [reflexivity|]. intros H. apply andb_true_iff in H as [Ha Hs].
  rewrite IH by exact Hs. destruct (Ascii.eqb a c) eqn:E; [|reflexivity]. apply Ascii.eqb_eq in E; subst. lia.
Qed.

Lemma last_char_contains c s : last_char s = Some c -> contains c s = true.
Proof.
  induction s as [|a s IH]; [discriminate|]. cbn [last_char contains]. destruct s as [|b s].
  - intros H; injection H as ->. rewrite Ascii.eqb_refl. reflexivity.
  - intros H. rewrite IH by exact H. apply orb_true_r.
Qed.

Lemma illegal_facts c : In c illegal ->
  ((N_of_ascii c < 97)%N \/ (122 < N_of_ascii c)%N) /\ is_digit c = false /\ c <> "-"%char /\ Ascii.eqb "_" c = false.
Proof.
  intros H. cbn in H. repeat destruct H as [<-|H]; try tauto; (split; [vm_compute; auto|repeat split; try reflexivity; discriminate]).
Qed.

Lemma path_sanitize_v2_legal hash path maxlen suf :
  (forall x, lower_only (hash x) = true) ->
  let p := path_sanitize_v2 hash path maxlen suf in
  (forall c, In c illegal -> contains c p = false) /\ last_char p <> Some "."%char /\ last_char p <> Some " "%char.
Proof.
  intros Hh. unfold path_sanitize_v2.
  set (nn := fold_left _ illegal_map path).
  assert (Hnn : forall c, In c illegal -> contains c nn = false) by (intros; now apply sanitize_gone).
  set (nm := if bad_ending nn then (nn ++ "_") else nn).
  assert (Hnm : (forall c, In c illegal -> contains c nm = false) /\ last_char nm <> Some "."%char /\ last_char nm <> Some " "%char).
  { unfold nm, bad_ending. destruct (last_char nn) as [a|] eqn:E.
    - destruct (Ascii.eqb a "." || Ascii.eqb a " ") eqn:E2.
      + split.
        * intros c Hc. rewrite contains_app, Hnn by assumption. cbn [contains]. apply illegal_facts in Hc as (_ & _ & _ & ->). reflexivity.
        * rewrite last_char_app by discriminate. cbn. split; discriminate.
      + apply orb_false_iff in E2 as [E2 E3]. split; [exact Hnn|]. rewrite E.
        split; intros H; injection H as ->; discriminate.
    - split; [exact Hnn|]. rewrite E. split; discriminate. }
  assert (Hhash : forall hl, (forall c, In c illegal -> contains c (substring 0 hl (hash nm)) = false) /\
     contains "." (substring 0 hl (hash nm)) = false /\ contains " " (substring 0 hl (hash nm)) = false).
  { intros hl. pose proof (lower_substring 0 hl _ (Hh nm)) as L. split; [|split].
    - intros c Hc. apply lower_contains; [|exact L]. now apply illegal_facts.
    - apply lower_contains; [|exact L]. left; vm_compute; reflexivity.
    - apply lower_contains; [|exact L]. left; vm_compute; reflexivity. }
  destruct maxlen as [ml|]; [|exact Hnm].
  destruct (ml <? Z.of_nat (String.length nm))%Z; [|exact Hnm].
  destruct (Hhash (Z.to_nat (Z.max 8 (ml - 2)))) as (G1 & G2 & G3).
  destruct suf as [n|].
  - split.
    + intros c Hc. rewrite contains_app, G1 by assumption. cbn [contains]. apply illegal_facts in Hc as (_ & Hd & Hm & ->).
      now rewrite Z_str_no.
    + rewrite last_char_app by discriminate.
      assert (Hl : forall c, c = "."%char \/ c = " "%char -> last_char (String "_" (Z_str n)) <> Some c).
      { intros c Hc H. apply last_char_contains in H. cbn in H. rewrite Z_str_no in H by (destruct Hc; subst; (reflexivity || discriminate)).
        destruct Hc; subst; discriminate. }
      split; apply Hl; auto.
  - split; [exact G1|]. split; intros H; apply last_char_contains in H; congruence.
Qed.

Lemma length_app_s a b : String.length (a ++ b) = (String.length a + String.length b)%nat.
Proof. induction a; cbn; auto. Qed.

Lemma substring_length n s : (String.length (substring 0 n s) <= n)%nat.
Proof. revert s; induction n as [|n IH]; intros [|c s]; cbn; try lia. specialize (IH s). lia. Qed.

Lemma N_str_length_small n : (n < 10)%N -> String.length (N_str n) = 1%nat.
Proof.
  intros H. unfold N_str. cbn [nstr]. replace (n / 10 =? 0)%N with true; [reflexivity|].
  symmetry. apply N.eqb_eq, N.div_small. exact H.
Qed.

Lemma path_sanitize_len hash path maxlen n :
  (10 <= maxlen)%Z -> (0 <= n < 10)%Z ->
  (Z.of_nat (String.length (path_sanitize_v2 hash path (Some maxlen) (Some n))) <= maxlen)%Z.
Proof.
  intros Hm Hn. unfold path_sanitize_v2. cbv zeta.
  match goal with |- context [(maxlen <? ?x)%Z] => destruct (maxlen <? x)%Z eqn:E end; [|lia].
  rewrite length_app_s. cbn [String.length].
  match goal with |- context [substring 0 ?k ?s] => pose proof (substring_length k s) as Hs end.
  rewrite Z.max_r in * by lia.
  assert (String.length (Z_str n) = 1%nat).
  { destruct n as [|p|p]; [reflexivity| |lia]. cbn [Z_str]. apply N_str_length_small. lia. }
  lia.
Qed.

(** ** concise on streams *)

Lemma format_ready_clean r a b : clean r -> clean (format_ready r a b).
Proof.
  intros Hr. pose proof (indexed_clean r a Hr) as [I1 I2]. destruct Hr as [H1 H2]. unfold format_ready.
  destruct (a + 1 =? b)%Z; [now split|].
  destruct (a =? 0)%Z; split; rewrite contains_app; cbn [contains];
    rewrite ?H1, ?H2, ?I1, ?I2, Z_str_no by (reflexivity || discriminate); reflexivity.
Qed.

Definition run_clean (acc : run) : Prop := match acc with Some (r, _, _) => clean r | None => True end.

Lemma concise_step_clean acc out part acc' out' :
  run_clean acc -> Forall clean out -> clean part ->
  concise_step (acc, out) part = Ok (acc', out') -> run_clean acc' /\ Forall clean out'.
Proof.
  intros Ha Ho Hp. unfold concise_step. destruct (contains "." part).
  - destruct (split "." part) as [|root [|suf [|? ?]]] eqn:Es; try discriminate.
    assert (Hr : clean root).
    { destruct Hp as [P1 P2].
      pose proof (split_pieces_sub "." "," part P1) as Q1. pose proof (split_pieces_sub "." "|" part P2) as Q2.
      rewrite Es in Q1, Q2. inversion Q1; inversion Q2; subst. now split. }
    intros H. apply bind_ok in H as (i & _ & H). destruct acc as [[[r a] b]|].
    + destruct (String.eqb r root && (i =? b)%Z); injection H as <- <-; split; auto.
      apply Forall_app. split; auto. constructor; auto. now apply format_ready_clean.
    + injection H as <- <-. auto.
  - destruct acc as [[[r a] b]|]; intros H; injection H as <- <-; split; auto; try exact I;
      apply Forall_app; split; auto; repeat constructor; try apply Hp; apply format_ready_clean; exact Ha.
Qed.

Lemma concise_loop_clean parts : forall acc out acc' out',
  run_clean acc -> Forall clean out -> Forall clean parts ->
  concise_loop (acc, out) parts = Ok (acc', out') -> run_clean acc' /\ Forall clean out'.
Proof.
  induction parts as [|p ps IH]; intros acc out acc' out' Ha Ho Hp H; cbn [concise_loop] in H.
  - injection H as <- <-. auto.
  - inversion Hp; subst. apply bind_ok in H as ([a1 o1] & H1 & H).
    apply concise_step_clean in H1 as [G1 G2]; auto. apply (IH a1 o1 acc' out'); assumption.
Qed.

Lemma concise_clean f n g : normalize f = Ok n -> Forall clean (codes n) -> concise f = Ok g -> Forall clean (codes g).
Proof.
  intros Hn Hc H. unfold concise in H. rewrite Hn in H. cbn [bind] in H.
  apply bind_ok in H as ([acc out] & Hl & H). apply concise_loop_clean in Hl as [H1 H2]; auto; try exact I.
  destruct acc as [[[r a] b]|]; injection H as <-; cbn; auto.
  apply Forall_app. split; auto. constructor; auto. now apply format_ready_clean.
Qed.

Lemma cconcise_text s n :
  cnormalize (mkC s None) = Ok n -> streams_writable n -> Forall (Forall canonical) (cvalues n) ->
  exists k, cconcise (mkC s None) = Ok k /\ read_streams (ctext k) = cvalues k /\
    (forall names, (exists l, In l (cvalues k) /\ denotes_all l names) <-> In names (cvalues n)).
Proof.
  intros Hn Hw Hcan. destruct (cnormalize_text _ _ Hn Hw) as (_ & _ & Hstreams).
  apply cnormalize_vals in Hn as (vals & Hv & -> & Hf & Hs).
  unfold streams_writable, cvalues in *. cbn [cparse cparsed ctext] in *.
  assert (HW : Forall (fun v => writable (codes v)) vals).
  { apply (dict_vals_writable vals (fun l => l <> [] /\ l <> [""])); auto.
    - now rewrite Forall_map in Hw.
    - eapply Forall_impl; [|exact Hf]. intros v (? & _). assumption. }
  assert (Hcan' : Forall (fun v => Forall canonical (codes v)) vals).
  { apply Forall_forall. intros v Hvi. rewrite Forall_forall in Hcan. apply Hcan.
    apply dict_streams_In; eauto. }
  assert (G : exists gs, mapR (fun kv : string * fused => concise (snd kv)) (parse_text s) = Ok gs /\
     Forall2 (fun v g => normalize g = Ok v /\ good g /\ writable (codes g)) vals gs).
  { apply mapR_Forall2 in Hv.
    assert (Hpg : forall kv, In kv (parse_text s) -> good (snd kv)) by (intros [k f] Hk; eapply parse_text_good; exact Hk).
    clear Hs Hf Hw Hcan Hstreams. induction Hv as [|[k f] v p vs Hkv _ IH].
    - exists []. split; [reflexivity|constructor].
    - inversion HW; inversion Hcan'; subst. destruct IH as (gs & E & F); auto.
      { intros; apply Hpg; now right. }
      cbn [snd] in Hkv. pose proof (Hpg _ (or_introl eq_refl)) as Hg. cbn [snd] in Hg.
      destruct (concise_roundtrip f v Hg Hkv H5) as (g & Eg & Ng).
      exists (g :: gs). cbn [mapR snd]. rewrite Eg. cbn [bind]. rewrite E. split; [reflexivity|].
      constructor; [|exact F]. split; [exact Ng|].
      assert (Hgg : isnorm g = false).
      { unfold concise in Eg. rewrite Hkv in Eg. cbn [bind] in Eg. apply bind_ok in Eg as ([acc out] & _ & Eg).
        destruct acc as [[[r a] b]|]; injection Eg as <-; reflexivity. }
      split; [intros Hx; congruence|]. destruct H1 as (W1 & W2 & W3). split; [exact (concise_clean f v g Hkv W1 Eg)|].
      split; intros Ec; destruct g as [gc gb]; cbn in Ec, Hgg; subst gc gb; cbn in Ng; injection Ng as <-; cbn in W2, W3; congruence. }
  destruct G as (gs & E & F). unfold cconcise, restream. change (cparse (mkC s None)) with (parse_text s).
  rewrite E. cbn [bind]. eexists. split; [reflexivity|]. cbn [cparse cparsed ctext].
  assert (HWg : Forall (fun v => writable (codes v)) gs).
  { clear -F. induction F as [|v g vs gs (_ & _ & H) F IH]; constructor; auto. }
  split; [now apply dict_read|]. intros names. rewrite dict_streams_In by exact HW. split.
  - intros (l & Hl & Hd). apply dict_streams_In in Hl as (g & Hg & <-); [|exact HWg].
    clear -F Hg Hd. induction F as [|v g' vs gs (N & G & _) F IH]; [destruct Hg|]. destruct Hg as [->|Hg].
    + exists v. split; [now left|]. rewrite (normalize_names g names G Hd) in N. injection N as <-. reflexivity.
    + destruct (IH Hg) as (v' & ? & ?). exists v'. split; [now right|assumption].
  - intros (v & Hvi & <-).
    assert (G : exists g, In g gs /\ normalize g = Ok v /\ good g).
    { clear -F Hvi. induction F as [|v' g vs gs (N & G & _) F IH]; [destruct Hvi|]. destruct Hvi as [->|Hvi].
      - exists g. split; [now left|auto].
      - destruct (IH Hvi) as (g' & ? & ?). exists g'. split; [now right|assumption]. }
    destruct G as (g & Hg & N & Hgg). exists (codes g). split; [apply dict_streams_In; eauto|].
    now apply normalize_names_inv.
Qed.

(** ** general slices *)

Lemma slice_bound_pos len z p : at_pos len z p -> slice_bound (Z.of_nat len) z = Z.of_nat p.
Proof. intros [Hp H]. unfold slice_bound. destruct (z <? 0)%Z eqn:E; lia. Qed.

Lemma py_slice_at {A} (l : list A) a b pa pb :
  at_pos (List.length l) a pa -> at_pos (List.length l) b pb -> (pa <= pb)%nat ->
  block_at l (py_slice l (Some a) (Some b)) pa /\
  List.length (py_slice l (Some a) (Some b)) = (pb - pa)%nat.
Proof.
  intros Ha Hb Hab.
  assert (E : py_slice l (Some a) (Some b) = py_slice l (Some (Z.of_nat pa)) (Some (Z.of_nat pb))).
  { unfold py_slice. rewrite (slice_bound_pos _ _ _ Ha), (slice_bound_pos _ _ _ Hb).
    rewrite (slice_bound_pos _ (Z.of_nat pa) pa), (slice_bound_pos _ (Z.of_nat pb) pb); [reflexivity| |];
      (split; [apply Ha || apply Hb|now left]). }
  rewrite E. destruct Ha, Hb. pose proof (py_slice_block l (Z.of_nat pa) (Z.of_nat pb)) as H3.
  destruct H3 as [G1 G2]; [lia|lia|]. rewrite Nat2Z.id in G1. split; [exact G1|]. rewrite G2. lia.
Qed.

(** ** edit sequences *)

Lemma apply_edits_ok es : forall s, oset_ok s -> edits_in_range (oitems s) es ->
  exists s', apply_edits s es = Ok s' /\ oset_ok s' /\ oitems s' = fold_left list_edit es (oitems s).
Proof.
  induction es as [|e es IH]; intros s Hs Hr; cbn [apply_edits fold_left].
  - eauto.
  - destruct Hr as [He Hr]. destruct e as [i x|P]; cbn [apply_edit edit_in_range list_edit] in *.
    + destruct (oset_insert_spec s i x Hs He) as [H1 H2]. cbn [bind]. rewrite <- H2 in *. now apply IH.
    + destruct He as [H1 H2]. destruct (oset_delitems_spec s P Hs H1 H2) as (s' & E & Hs' & Hi).
      rewrite E. cbn [bind]. rewrite <- Hi in *. now apply IH.
Qed.

(** ** component indices of a fused spec *)

Lemma fci_loop_fresh l : forall i d, NoDup l -> (forall p, In p l -> ~ In p (map fst d)) ->
  fused_component_indices_loop i l d = (d ++ combine l (tile i (map size_lut l)))%list.
Proof.
  induction l as [|p l IH]; intros i d Hnd Hf; cbn [fused_component_indices_loop map combine tile].
  - now rewrite app_nil_r.
  - inversion Hnd as [|? ? Hp Hl]; subst. rewrite dict_set_new by (apply Hf; now left).
    rewrite IH; [|exact Hl|].
    + rewrite <- app_assoc. reflexivity.
    + intros q Hq. rewrite map_app, in_app_iff. cbn. intros [H|[->|[]]]; [|tauto].
      eapply Hf; [right; exact Hq|exact H].
Qed.

Lemma fci_spec l : NoDup l -> Forall (fun c => contains ":" c = false) l ->
  exists szs, Forall2 (fun c z => exists ns, denotes c ns /\ z = Z.of_nat (List.length ns)) l szs /\
    fused_component_indices (mkF l false) = combine l (tile 0 szs) /\
    numel (mkF l false) = Ok (zsum szs).
Proof.
  intros Hnd Hc. exists (map size_lut l).
  assert (Hs : forall c, contains ":" c = false -> exists ns, denotes c ns /\ size_lut c = Z.of_nat (List.length ns)).
  { intros c H. unfold size_lut. destruct (alias_lut c) as [ns|] eqn:E.
    - exists ns. split; [|reflexivity]. apply den_alias. now apply alias_lut_Some.
    - exists [c]. split; [|reflexivity]. apply den_atom. split; [now apply alias_lut_None|exact H]. }
  split; [|split].
  - clear Hnd. induction Hc; cbn; constructor; auto.
  - unfold fused_component_indices. cbn [codes]. now rewrite fci_loop_fresh by auto.
  - rewrite numel_sum_sizes by (intros H; discriminate). unfold sizes. cbn [isnorm codes].
    assert (E : mapR code_size l = Ok (map size_lut l)).
    { clear Hnd. induction Hc as [|c l H _ IH]; [reflexivity|]. cbn [mapR map]. rewrite IH.
      assert (Ec : code_size c = Ok (size_lut c)) by (unfold code_size, size_lut; rewrite H; destruct (alias_lut c); reflexivity).
      now rewrite Ec. }
    rewrite E. reflexivity.
Qed.

(** ** the facts behind the property theorems *)

Lemma good_false l : good (mkF l false). Proof. intros H; discriminate. Qed.

Lemma concise_good f n : concise f = Ok n -> good n.
Proof.
  unfold concise. intros H. apply bind_ok in H as (m & _ & H). apply bind_ok in H as ([acc out] & _ & H).
  destruct acc as [[[r a] b]|]; injection H as <-; apply good_false.
Qed.

Lemma good_reachable :
  (forall l, good (mkF l false)) /\ (forall s, good (fparse s)) /\
  (forall f n, good f -> normalize f = Ok n -> good n) /\
  (forall f n, concise f = Ok n -> good n) /\
  (forall s, good (cfuse (mkC s None))) /\
  (forall s k f, In (k, f) (parse_text s) -> good f).
Proof.
  split; [exact good_false|]. split; [exact fparse_good|]. split; [exact normalize_good|].
  split; [exact concise_good|]. split; [intros s; apply cfuse_codes|].
  intros s k f H. now apply parse_text_good in H.
Qed.

Lemma normalize_atomic_idempotent :
  (forall f n, good f -> normalize f = Ok n ->
     Forall atomic (codes n) /\ (forall b, normalize (mkF (codes n) b) = Ok n) /\ normalize n = Ok n) /\
  (forall l b, Forall atomic l -> normalize (mkF l b) = Ok (mkF l true)).
Proof.
  split.
  - intros f n Hg Hn. split; [eapply normalize_atomic; eassumption|].
    split; [intros b; eapply normalize_idem; eassumption|].
    pose proof (normalize_flag _ _ Hn) as Hf. unfold normalize. now rewrite Hf.
  - intros l b. apply normalize_atomic_id.
Qed.

Lemma numel_sizes_agree f : good f ->
    (numel f = rmap (fun n => Z.of_nat (List.length (codes n))) (normalize f)) /\
    (numel f = rmap zsum (sizes f)) /\
    (forall e, numel f = Err e <-> normalize f = Err e) /\
    (forall szs, sizes f = Ok szs ->
       Forall2 (fun c z => exists l, denotes c l /\ z = Z.of_nat (List.length l)) (codes f) szs).
Proof.
  intros Hg. split; [now apply numel_normalize|]. split; [now apply numel_sum_sizes|].
  split; [|intros szs H; now apply sizes_widths].
  intros e. rewrite numel_normalize by assumption. destruct (normalize f); cbn; split; intros H; congruence.
Qed.

Lemma concise_lossless f n : good f -> normalize f = Ok n -> Forall canonical (codes n) ->
    exists g, concise f = Ok g /\ normalize g = Ok n /\
              (List.length (codes g) <= List.length (codes n))%nat /\ chain_free (codes g).
Proof.
  intros Hg Hn Hc. destruct (concise_roundtrip f n Hg Hn Hc) as (g & E & N). exists g.
  split; [exact E|]. split; [exact N|]. split; [exact (concise_shorter f n g Hn E)|].
  exact (concise_maximal f n g Hg Hn Hc E).
Qed.

Lemma concise_failures :
  (exists f n, good f /\ normalize f = Ok n /\ concise f = Err ValueError) /\
  (exists f n g n', good f /\ normalize f = Ok n /\ concise f = Ok g /\ normalize g = Ok n' /\
                    codes n' <> codes n).
Proof.
  split.
  - exists (mkF ["a.b.c"] false), (mkF ["a.b.c"] true). repeat split; [apply good_false|reflexivity..].
  - exists (mkF ["a.00"] false), (mkF ["a.00"] true), (mkF ["a.0"] false), (mkF ["a.0"] true).
    repeat split; [apply good_false|reflexivity..|discriminate].
Qed.

Lemma concise_total_refuted :
  ~ (forall f n, good f -> normalize f = Ok n ->
       exists g, concise f = Ok g /\ normalize g = Ok n).
Proof.
  intros H. destruct concise_failures as [(f & n & Hg & Hn & Hc) _]. destruct (H f n Hg Hn) as (g & E & _). congruence.
Qed.

Lemma slice_syntax_meaning :
  (forall c root start stop step idxs,
     slice_form c root start stop step -> step <> 0%Z -> lists_progression start stop step idxs ->
     rmap codes (normalize (mkF [c] false)) = Ok (map (fun i => root ++ String "." (Z_str i)) idxs)) /\
  (forall c, contains ":" c = true ->
     (forall root start stop step, slice_form c root start stop step -> step = 0%Z) ->
     exists e, normalize (mkF [c] false) = Err e) /\
  (forall start stop step, step <> 0%Z -> exists idxs, lists_progression start stop step idxs).
Proof.
  split; [|split].
  - intros c root a b s idxs Hf Hs Hi. apply normalize_denotes; [apply good_false|].
    exists [map (fun i => root ++ String "." (Z_str i)) idxs]. split; [|cbn; now rewrite app_nil_r].
    constructor; [|constructor]. eapply den_slice; eassumption.
  - intros c Hc Hno. destruct (normalize (mkF [c] false)) as [n|e] eqn:E; [|eauto]. exfalso.
    apply normalize_names_inv in E; [|apply good_false]. destruct E as (ls & E & _). cbn in E.
    inversion E as [|? l ? ? Hd Hr]; subst. destruct Hd as [c l Hal|c Hat|c root a b s idxs Hf Hs _].
    + apply (not_alias_colon c Hc). apply in_map_iff. exists (c, l). auto.
    + destruct Hat. congruence.
    + apply Hs. eapply Hno; exact Hf.
  - intros a b s Hs. unfold lists_progression.
    destruct (py_range a b s) as [l|e] eqn:E.
    + exists l. now apply py_range_lists.
    + unfold py_range in E. destruct (s =? 0)%Z eqn:E0; [lia|discriminate].
Qed.

Lemma fused_set_algebra f g A B :
  good f -> good g -> denotes_all (codes f) A -> denotes_all (codes g) B ->
  (exists d, difference f (OpSpec g) = Ok d /\
     (forall c, In c (codes d) <-> In c A /\ ~ In c B) /\ NoDup (codes d) /\ subseq (codes d) A) /\
  (exists d, intersection f (OpSpec g) = Ok d /\
     (forall c, In c (codes d) <-> In c A /\ In c B) /\ subseq (codes d) A /\
     (forall c, In c B -> count_occ string_dec (codes d) c = count_occ string_dec A c)) /\
  (exists d, union f (OpSpec g) = Ok d /\
     (forall c, In c (codes d) <-> In c A \/ In c B) /\ NoDup (codes d) /\
     exists left rest, codes d = (left ++ rest)%list /\ (forall c, In c left <-> In c A) /\
                       subseq left A /\ subseq rest B) /\
  (exists r, issubset f (OpSpec g) = Ok r /\ (r = true <-> incl A B)) /\
  (exists r, issuperset f (OpSpec g) = Ok r /\ (r = true <-> incl B A)).
Proof.
  intros Hf Hg HA HB. split; [|split; [|split; [|split]]].
  - destruct (difference_spec f g A B Hf Hg HA HB) as (d & ? & ? & ?). eauto.
  - destruct (intersection_spec f g A B Hf Hg HA HB) as (d & ? & ? & ?). eauto.
  - destruct (union_spec f g A B Hf Hg HA HB) as (d & ? & ? & ?). eauto.
  - exact (issubset_spec f g A B Hf Hg HA HB).
  - exact (issuperset_spec f g A B Hf Hg HA HB).
Qed.

Lemma stream_algebra s t n B : cnormalize (mkC s None) = Ok n ->
    denotes_all (List.concat (read_streams t)) B ->
    Forall (fun l => ~ In "" l) (cvalues n) ->
    (exists d ds, cdifference (mkC s None) (mkC t None) = Ok d /\
       Forall2 (fun l dl => (forall c, In c dl <-> In c l /\ ~ In c B) /\ NoDup dl /\ subseq dl l) (cvalues n) ds /\
       read_streams (ctext d) = filter (fun l => negb (Nat.eqb (List.length l) 0)) ds) /\
    (exists d ds, cintersection (mkC s None) (mkC t None) = Ok d /\
       Forall2 (fun l dl => (forall c, In c dl <-> In c l /\ In c B) /\ subseq dl l) (cvalues n) ds /\
       read_streams (ctext d) = filter (fun l => negb (Nat.eqb (List.length l) 0)) ds).
Proof. intros H1 H2 H3. split; [now apply cdifference_spec|now apply cintersection_spec]. Qed.

Lemma denotes_all_self l : Forall atomic l -> denotes_all l l.
Proof. intros H. exists (map (fun c => [c]) l). split; [now apply Forall2_atoms|]. now rewrite concat_singletons. Qed.

Lemma fuse_split s names : denotes_all (List.concat (read_streams s)) names ->
    codes (cfuse (mkC s None)) = List.concat (read_streams s) /\
    normalize (cfuse (mkC s None)) = Ok (mkF names true) /\
    numel (cfuse (mkC s None)) = Ok (Z.of_nat (List.length names)) /\
    (NoDup (read_streams s) -> cnumel (mkC s None) = Ok (Z.of_nat (List.length names))) /\
    (~ In "" names -> exists c, csplit (mkC s None) = Ok c /\
        read_streams (ctext c) = map (fun x => [x]) names /\
        (NoDup names -> cnumel c = Ok (Z.of_nat (List.length names)))).
Proof.
  intros H. destruct (cfuse_codes s) as [Hc Hg]. split; [exact Hc|]. split; [now apply fuse_names|].
  split; [apply numel_names; [exact Hg|now rewrite Hc]|]. split; [intros Hnd; now apply cnumel_names|].
  intros He. destruct (csplit_spec s names H He) as (c & E & R). exists c. split; [exact E|]. split; [exact R|].
  intros Hnd.
  assert (Ec : c = mkC (ctext c) None).
  { unfold csplit in E. apply bind_ok in E as (l & _ & E). injection E as <-. reflexivity. }
  rewrite Ec. apply cnumel_names; rewrite R.
  - apply FinFun.Injective_map_NoDup; [|exact Hnd]. intros x y Exy. now injection Exy.
  - rewrite concat_singletons. apply denotes_all_self. eapply denotes_all_atomic; exact H.
Qed.

Lemma numel_repeated_refuted :
  ~ (forall s names, denotes_all (List.concat (read_streams s)) names ->
       cnumel (mkC s None) = numel (cfuse (mkC s None))).
Proof.
  intros H. specialize (H "a,a" ["a"; "a"]). 
  assert (G : denotes_all (List.concat (read_streams "a,a")) ["a"; "a"]).
  { change (List.concat (read_streams "a,a")) with ["a"; "a"]. apply denotes_all_self.
    repeat constructor; cbn; intuition discriminate. }
  specialize (H G). vm_compute in H. discriminate.
Qed.

Lemma late_fuse_monoid :
  (forall a b, read_streams (btext (late_fuse a b)) = (read_streams (btext a) ++ read_streams (btext b))%list) /\
  (forall a b, late_fuse_any a (LSpec b) = Ok (OSpec (late_fuse a b))) /\
  (forall a e, btext e = "" -> late_fuse e a = a /\ btext (late_fuse a e) = btext a) /\
  (forall a b c, btext (late_fuse a (late_fuse b c)) = btext (late_fuse (late_fuse a b) c)) /\
  (forall l b, spec_sum l = Some b ->
     read_streams (btext b) = List.concat (map (fun x => read_streams (btext x)) l)).
Proof.
  split; [exact late_fuse_streams|]. split; [|split; [|split; [exact late_fuse_assoc|exact spec_sum_streams]]].
  - intros a b. unfold late_fuse_any, late_fuse. destruct (String.eqb (btext a) ""); [reflexivity|].
    destruct (String.eqb (btext b) ""); reflexivity.
  - intros a e He. split.
    + unfold late_fuse. now rewrite He.
    + rewrite btext_late_fuse, He. destruct (String.eqb_spec (btext a) ""); cbn; congruence.
Qed.

Lemma late_fuse_str_refuted :
  ~ (forall a s, exists b, late_fuse_any a (LStr s) = Ok (OSpec b) /\
       read_streams (btext b) = (read_streams (btext a) ++ read_streams s)%list) /\
  (forall a s, btext a <> "" -> late_fuse_any a (LStr s) = Err TypeError).
Proof.
  split.
  - intros H. destruct (H (BC (mkC "a" None)) "b") as (b & E & _). discriminate.
  - intros a s Ha. unfold late_fuse_any. apply String.eqb_neq in Ha. now rewrite Ha.
Qed.

Lemma coerce_history_independent history d : not_float d ->
    fst (coerce (fold_left memo_step history []) d) = coerce_fresh d.
Proof. intros H. apply coerce_ok; [|exact H]. apply memo_steps_ok, memo_ok_nil. Qed.

Lemma coerce_history_refuted :
  ~ (forall history d, fst (coerce (fold_left memo_step history []) d) = coerce_fresh d).
Proof. intros H. specialize (H [OpCoerce (DInt 1)] (DFloat 1)). vm_compute in H. discriminate. Qed.

Lemma normalize_text_agrees s n : cnormalize (mkC s None) = Ok n ->
    cnormalize n = Ok n /\
    (streams_writable n ->
       read_streams (ctext n) = cvalues n /\ NoDup (cvalues n) /\
       (forall l, In l (cvalues n) <-> exists l0, In l0 (read_streams s) /\ denotes_all l0 l) /\
       exists n', cnormalize (mkC (ctext n) None) = Ok n' /\ ctext n' = ctext n /\ cvalues n' = cvalues n).
Proof.
  intros H. split; [eapply cnormalize_idem; exact H|]. intros Hw.
  destruct (cnormalize_text s n H Hw) as (H1 & H2 & H3). repeat (split; [assumption|]).
  eapply cnormalize_retext; eassumption.
Qed.

Lemma empty_stream_refuted :
  ~ (forall s n, cnormalize (mkC s None) = Ok n -> read_streams (ctext n) = cvalues n).
Proof.
  intros H. assert (E : exists n, cnormalize (mkC "a:0,b" None) = Ok n) by (eexists; vm_compute; reflexivity).
  destruct E as (n & E). pose proof (H _ _ E) as G. vm_compute in E. injection E as <-. vm_compute in G. discriminate.
Qed.

Lemma fused_component_indices_refuted :
  ~ (forall l n, NoDup l -> numel (mkF l false) = Ok n ->
       exists szs, zsum szs = n /\ List.length szs = List.length l /\
                   fused_component_indices (mkF l false) = combine l (tile 0 szs)).
Proof.
  intros H. destruct (H ["a:3"] 3%Z) as (szs & E & L & F); [repeat constructor; cbn; tauto|reflexivity|].
  destruct szs as [|z [|z' szs]]; try discriminate. cbn in E. rewrite Z.add_0_r in E. subst z. discriminate.
Qed.

Lemma subsequence_index_exact s1 s2 : NoDup s1 ->
    match subsequence_index s1 s2 with
    | Some (p, q) => block_at s1 s2 p /\ q = (p + List.length s2)%nat
    | None => forall p, ~ block_at s1 s2 p
    end.
Proof.
  intros H. destruct (subsequence_index s1 s2) as [[p q]|] eqn:E.
  - now apply subsequence_index_Some.
  - now apply subsequence_index_None.
Qed.

Lemma oset_edits l es : edits_in_range (oset_of l) es ->
    exists s', apply_edits (oset_new l) es = Ok s' /\ oset_ok s' /\
               oitems s' = fold_left list_edit es (oset_of l).
Proof. intros H. destruct (oset_new_ok l) as [H1 H2]. rewrite <- H2 in H |- *. now apply apply_edits_ok. Qed.

Lemma path_legal hash b maxlen p : (forall x, lower_only (hash x) = true) ->
    path_sanitize hash b maxlen = Ok p ->
    (forall c, In c illegal -> contains c p = false) /\
    last_char p <> Some "."%char /\ last_char p <> Some " "%char.
Proof.
  intros Hh H. unfold path_sanitize in H. apply bind_ok in H as (n & _ & H). injection H as <-.
  now apply path_sanitize_v2_legal.
Qed.

Lemma path_maxlen_refuted :
  ~ (forall hash b maxlen p, (forall x, lower_only (hash x) = true) ->
       path_sanitize hash b (Some maxlen) = Ok p -> (Z.of_nat (String.length p) <= maxlen)%Z).
Proof.
  intros H. specialize (H (fun _ => "abcdefghijk") (BC (mkC "panchromatic" None)) 5%Z "abcdefgh_1" (fun _ => eq_refl) eq_refl).
  vm_compute in H. auto.
Qed.

Lemma path_maxlen_partial hash b maxlen p n : (10 <= maxlen)%Z -> bnumel b = Ok n -> (0 <= n < 10)%Z ->
    path_sanitize hash b (Some maxlen) = Ok p -> (Z.of_nat (String.length p) <= maxlen)%Z.
Proof.
  intros Hm Hn Hr H. unfold path_sanitize in H. rewrite Hn in H. cbn [bind] in H. injection H as <-.
  now apply path_sanitize_len.
Qed.

Lemma py_get_iff {A} (l : list A) i a :
  py_get l i = Ok a <-> exists k, nth_error l k = Some a /\
     (Z.of_nat k = i \/ Z.of_nat k = i + Z.of_nat (List.length l))%Z.
Proof.
  rewrite py_get_ok. split.
  - intros (k & _ & H1 & H2). eauto.
  - intros (k & H1 & H2). exists k. split; [|auto]. apply nth_error_Some. congruence.
Qed.

Lemma getitem_spec f names : good f -> denotes_all (codes f) names ->
    (forall i c, getitem f (IInt i) = Ok (GCode c) <->
       exists k, nth_error names k = Some c /\
                 (Z.of_nat k = i \/ Z.of_nat k = i + Z.of_nat (List.length names))%Z) /\
    (forall a b pa pb, at_pos (List.length names) a pa -> at_pos (List.length names) b pb -> (pa <= pb)%nat ->
       exists g, getitem f (ISlice (Some a) (Some b) None) = Ok (GSpec g) /\
                 block_at names (codes g) pa /\ List.length (codes g) = (pb - pa)%nat) /\
    (forall l g, getitem f (IList l) = Ok (GSpec g) <->
       isnorm g = false /\
       Forall2 (fun i c => exists k, nth_error names k = Some c /\
                 (Z.of_nat k = i \/ Z.of_nat k = i + Z.of_nat (List.length names))%Z) l (codes g)).
Proof.
  intros Hg Hd. unfold getitem. rewrite (normalize_names f names Hg Hd). cbn [bind codes]. split; [|split].
  - intros i c. rewrite <- py_get_iff. destruct (py_get names i); cbn; split; intros H; congruence.
  - intros a b pa pb Ha Hb Hab. eexists. split; [reflexivity|]. cbn [codes]. now apply py_slice_at.
  - intros l g. split.
    + intros H. apply bind_ok in H as (cs & Hc & H). injection H as <-. cbn. split; [reflexivity|].
      apply mapR_Forall2 in Hc. eapply Forall2_imp; [|exact Hc]. intros i c. now rewrite py_get_iff.
    + intros [Hn HF]. assert (E : mapR (py_get names) l = Ok (codes g)).
      { induction HF as [|i c l cs Hic _ IH]; [reflexivity|]. cbn. apply py_get_iff in Hic. now rewrite Hic, IH. }
      rewrite E. cbn. destruct g; cbn in *. now subst.
Qed.

Ltac ifs := repeat match goal with
  | |- context [if (?x <? ?y)%Z then _ else _] => destruct (x <? y)%Z eqn:?
  | H : context [if (?x <? ?y)%Z then _ else _] |- _ => destruct (x <? y)%Z eqn:?
  end.

Lemma py_slice_positions {A} (l : list A) a b :
  Ok (py_slice l a b) = (ks <- slice_positions (Z.of_nat (List.length l)) a b 1 ;; mapR (py_get l) ks).
Proof.
  unfold py_slice, slice_positions. cbn [Z.ltb Z.compare]. set (n := Z.of_nat (List.length l)).
  set (lo := match a with None => 0%Z | Some i => slice_bound n i end).
  set (hi := match b with None => n | Some i => slice_bound n i end).
  assert (Hlo : (0 <= lo <= n)%Z) by (unfold lo, slice_bound; destruct a; ifs; lia).
  assert (Hhi : (0 <= hi <= n)%Z) by (unfold hi, slice_bound; destruct b; ifs; lia).
  rewrite py_range_1. cbn [bind]. clearbody lo hi. symmetry.
  assert (H : forall m k, (k + m <= List.length l)%nat ->
     mapR (py_get l) (map (fun j => (Z.of_nat k + j)%Z) (zseq m)) = Ok (firstn m (skipn k l))).
  { induction m as [|m IH]; intros k Hk; [reflexivity|].
    change (zseq (S m)) with (map Z.of_nat (seq 0 (S m))). cbn [seq map].
    rewrite <- seq_shift, !map_map. cbn [mapR].
    destruct (nth_error l k) as [x|] eqn:E; [|apply nth_error_None in E; lia].
    assert (G : py_get l (Z.of_nat k + Z.of_nat 0) = Ok x).
    { apply py_get_iff. exists k. split; [exact E|]. left. lia. }
    rewrite G. cbn [bind].
    specialize (IH (S k) ltac:(lia)). unfold zseq in IH. rewrite map_map in IH.
    erewrite map_ext; [rewrite IH|intros j; cbn beta; lia]. cbn [bind].
    f_equal. clear -E. revert k E. induction l as [|y l IH]; intros [|k] E; try discriminate; cbn in *.
    - now injection E as ->.
    - now apply IH. }
  specialize (H (Z.to_nat (hi - lo)) (Z.to_nat lo)). rewrite Z2Nat.id in H by lia.
  destruct (Z.le_gt_cases lo hi) as [L|L].
  - apply H. lia.
  - replace (Z.to_nat (hi - lo)) with 0%nat by lia. reflexivity.
Qed.

Lemma slice_positions_spec n a b st ks : (0 <= n)%Z -> slice_positions n a b st = Ok ks ->
  st <> 0%Z /\ (forall k, In k ks <-> picks n a b st k) /\
  StronglySorted (fun x y => (0 < st -> x < y) /\ (st < 0 -> y < x))%Z ks.
Proof.
  intros Hn H. assert (G : exists lo hi, py_range lo hi st = Ok ks /\
    (forall k, in_progression lo hi st k <-> picks n a b st k)).
  { unfold slice_positions in H. destruct (0 <? st)%Z eqn:E.
    - eexists _, _. split; [exact H|]. intros k. unfold in_progression, picks, walk_from, counted, slice_bound. rewrite E. split.
      + intros (m & Hm & -> & H1 & H2). specialize (H1 ltac:(lia)). assert (0 <= m * st)%Z by nia. split; [|split].
        * destruct a as [i|], b as [j|]; ifs; lia.
        * destruct a as [i|]; [|exists m; lia].
          destruct (i <? 0)%Z eqn:?; [exists m; lia|]. destruct (Z.le_gt_cases i n).
          -- exists m. lia.
          -- exfalso. destruct b as [j|]; ifs; lia.
        * intros j ->. split; [|lia]. intros _. destruct a as [i|]; ifs; lia.
      + intros (H1 & (m & Hm & H2) & H3). assert (0 <= m * st)%Z by nia. exists m. split; [exact Hm|]. split; [|split; [intros _|lia]].
        * destruct a as [i|]; ifs; lia.
        * destruct b as [j|]; [|lia]. destruct (H3 j eq_refl) as [H4 _]. specialize (H4 ltac:(lia)).
          ifs; lia.
    - eexists _, _. split; [exact H|]. intros k.
      assert (Hst : (st < 0)%Z). { destruct (Z.eq_dec st 0) as [->|]; [|lia]. discriminate H. }
      unfold in_progression, picks, walk_from, counted. rewrite E. split.
      + intros (m & Hm & -> & H1 & H2). specialize (H2 ltac:(lia)). assert (m * st <= 0)%Z by nia. split; [|split].
        * destruct a as [i|], b as [j|]; ifs; lia.
        * destruct a as [i|]; [|exists m; lia].
          destruct (i <? 0)%Z eqn:?; [|exists m; lia]. destruct (Z.le_gt_cases (-1) (i + n)).
          -- exists m. lia.
          -- exfalso. destruct b as [j|]; ifs; lia.
        * intros j ->. split; [lia|]. intros _. destruct a as [i|]; ifs; lia.
      + intros (H1 & (m & Hm & H2) & H3). assert (m * st <= 0)%Z by nia. exists m. split; [exact Hm|]. split; [|split; [lia|intros _]].
        * destruct a as [i|]; ifs; lia.
        * destruct b as [j|]; [|lia]. destruct (H3 j eq_refl) as [_ H4]. specialize (H4 ltac:(lia)).
          ifs; lia. }
  destruct G as (lo & hi & R & HP). apply py_range_lists in R as (R1 & R2 & R3). split; [exact R1|]. split; [|exact R3].
  intros k. rewrite R2. apply HP.
Qed.

Lemma getitem_slices f names a b st : good f -> denotes_all (codes f) names ->
  let step := match st with None => 1%Z | Some s => s end in
  (step = 0%Z -> getitem f (ISlice a b st) = Err ValueError) /\
  (step <> 0%Z -> exists ks out,
     getitem f (ISlice a b st) = Ok (GSpec (mkF out false)) /\
     (forall k, In k ks <-> picks (Z.of_nat (List.length names)) a b step k) /\
     StronglySorted (fun x y => (0 < step -> x < y) /\ (step < 0 -> y < x))%Z ks /\
     Forall2 (fun k c => nth_error names (Z.to_nat k) = Some c) ks out).
Proof.
  intros Hg Hd step. unfold getitem. rewrite (normalize_names f names Hg Hd). cbn [bind codes].
  assert (E : py_slice_step names a b st = (ks <- slice_positions (Z.of_nat (List.length names)) a b step ;; mapR (py_get names) ks)).
  { unfold py_slice_step, step. destruct st; [reflexivity|]. apply py_slice_positions. }
  rewrite E. clear E. clearbody step. split.
  - intros ->. reflexivity.
  - intros Hs. destruct (slice_positions (Z.of_nat (List.length names)) a b step) as [ks|e] eqn:E.
    2: { exfalso. unfold slice_positions, py_range in E. destruct (0 <? step)%Z; destruct (step =? 0)%Z eqn:E0; try discriminate; lia. }
    apply slice_positions_spec in E as (_ & E1 & E2); [|lia]. cbn [bind].
    assert (HF : forall l, (forall k, In k l -> In k ks) -> exists out, mapR (py_get names) l = Ok out /\
       Forall2 (fun k c => nth_error names (Z.to_nat k) = Some c) l out).
    { induction l as [|k l IH]; intros Hl; [exists []; split; [reflexivity|constructor]|].
      destruct IH as (out & O1 & O2); [intros j Hj; apply Hl; now right|].
      assert (Hk : (0 <= k < Z.of_nat (List.length names))%Z) by (apply E1; apply Hl; now left).
      destruct (nth_error names (Z.to_nat k)) as [c|] eqn:Ec; [|apply nth_error_None in Ec; lia].
      exists (c :: out). cbn [mapR].
      assert (G : py_get names k = Ok c). { apply py_get_iff. exists (Z.to_nat k). split; [exact Ec|]. left. lia. }
      rewrite G. cbn [bind]. rewrite O1. split; [reflexivity|]. now constructor. }
    destruct (HF ks (fun _ H => H)) as (out & O1 & O2). exists ks, out. rewrite O1. auto.
Qed.
