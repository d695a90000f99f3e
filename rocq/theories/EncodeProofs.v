(* Lemmas about encode and decode. *)
From Verif Require Import Py PyProofs ChanModel ChanSpec ChanProofs ChanSetProofs ChanStreamProofs EncodeModel EncodeSpec.
From Coq Require Import ZifyBool Permutation.
Local Open Scope Z_scope.

(** ** Slices *)

Lemma seg_mid {X} (pre b post : list X) i : i = Z.of_nat (List.length pre) ->
  seg (pre ++ b ++ post) (i, i + Z.of_nat (List.length b)) = b.
Proof.
  intros ->. unfold seg, py_slice, slice_bound. cbn [fst snd].
  destruct (Z.ltb_spec (Z.of_nat (List.length pre)) 0); [lia|].
  destruct (Z.ltb_spec (Z.of_nat (List.length pre) + Z.of_nat (List.length b)) 0); [lia|].
  rewrite !app_length. rewrite !Z.min_l by lia.
  replace (Z.to_nat (Z.of_nat (List.length pre))) with (List.length pre) by lia.
  replace (Z.to_nat (Z.of_nat (List.length pre) + Z.of_nat (List.length b) - Z.of_nat (List.length pre))) with (List.length b) by lia.
  rewrite skipn_app, skipn_all, Nat.sub_diag. cbn. rewrite firstn_app, Nat.sub_diag. cbn. now rewrite app_nil_r, firstn_all.
Qed.

Lemma seg_split {X} (a : list X) i j k : 0 <= i <= j -> j <= k -> k <= Z.of_nat (List.length a) ->
  (seg a (i, j) ++ seg a (j, k) = seg a (i, k))%list.
Proof.
  intros H1 H2 H3. unfold seg, py_slice, slice_bound. cbn [fst snd].
  destruct (Z.ltb_spec i 0); [lia|]. destruct (Z.ltb_spec j 0); [lia|]. destruct (Z.ltb_spec k 0); [lia|].
  rewrite !Z.min_l by lia.
  replace (Z.to_nat (k - i)) with (Z.to_nat (j - i) + Z.to_nat (k - j))%nat by lia.
  replace (Z.to_nat j) with (Z.to_nat i + Z.to_nat (j - i))%nat by lia.
  generalize (Z.to_nat (j - i)) as m, (Z.to_nat (k - j)) as n. intros m n.
  assert (G : forall l : list X, (firstn m l ++ firstn n (skipn m l) = firstn (m + n) l)%list).
  { clear. induction m as [|m IH]; intros l; [reflexivity|]. destruct l as [|x l]; cbn; [now rewrite firstn_nil|]. now rewrite IH. }
  rewrite <- G. f_equal. f_equal. clear. revert a. induction (Z.to_nat i) as [|i' IH]; intros a; [reflexivity|].
  destruct a as [|x a]; cbn; [now rewrite skipn_nil|apply IH].
Qed.

(** ** Layout of a group *)

Section Layout.
Context {X : Type}.
Implicit Types (g : @group X) (gs : list (@group X)).

Definition gkey g : string := join "|" (map fst g).
Definition garr g : list X := List.concat (map snd g).
Definition widths g : list Z := map (fun cb => Z.of_nat (List.length (snd cb))) g.
Definition layout g : list (string * piece) :=
  map (fun pr => (fst pr, (gkey g, snd pr))) (combine (map fst g) (tile 0 (widths g))).

Lemma tile_length i l : List.length (tile i l) = List.length l.
Proof. revert i; induction l; intros; cbn; auto. Qed.

Lemma layout_keys g : map fst (layout g) = map fst g.
Proof.
  unfold layout. rewrite map_map. cbn [fst]. unfold widths. generalize 0 as i.
  induction g as [|cb g IH]; intros i; cbn; [reflexivity|]. now rewrite IH.
Qed.

Lemma tile_seg g : forall pre post i, i = Z.of_nat (List.length pre) ->
  Forall2 (fun cb sl => seg (pre ++ garr g ++ post) sl = snd cb /\ i <= fst sl /\
             snd sl = fst sl + Z.of_nat (List.length (snd cb)) /\
             snd sl <= Z.of_nat (List.length (pre ++ garr g ++ post)))
          g (tile i (widths g)).
Proof.
  induction g as [|[c b] g IH]; intros pre post i Hi; cbn [widths map tile]; [constructor|].
  constructor.
  - cbn [fst snd]. unfold garr. cbn [map List.concat snd]. rewrite <- app_assoc. split; [now apply seg_mid|].
    rewrite !app_length. lia.
  - specialize (IH (pre ++ b)%list post (i + Z.of_nat (List.length b))). fold (widths g).
    rewrite app_length in IH. specialize (IH ltac:(lia)).
    eapply Forall2_imp; [|exact IH]. cbn beta. intros cb sl (H1 & H2 & H3 & H4).
    unfold garr in *. cbn [map List.concat snd]. rewrite <- !app_assoc in *. repeat split; auto. lia.
Qed.

Lemma layout_entry g c b : In (c, b) g -> exists sl, In (c, (gkey g, sl)) (layout g) /\ seg (garr g) sl = b /\
  0 <= fst sl /\ snd sl = fst sl + Z.of_nat (List.length b) /\ snd sl <= Z.of_nat (List.length (garr g)).
Proof.
  intros H. pose proof (tile_seg g [] [] 0 eq_refl) as F. cbn [app] in F. rewrite app_nil_r in F.
  unfold layout. remember (tile 0 (widths g)) as T eqn:E. clear E. set (k := gkey g) in *; set (a := garr g) in *; clearbody k a.
  induction F as [|cb sl g T (H1 & H2 & H3 & H4) F IH]; [destruct H|]. destruct H as [->|H].
  - exists sl. cbn in *. split; [now left|]. repeat split; auto.
  - destruct (IH H) as (sl' & H5 & H6). exists sl'. split; [now right|exact H6].
Qed.

Lemma layout_entry_inv g c p : In (c, p) (layout g) -> exists b, In (c, b) g /\ fst p = gkey g /\ seg (garr g) (snd p) = b /\
  0 <= fst (snd p) /\ snd (snd p) = fst (snd p) + Z.of_nat (List.length b) /\ snd (snd p) <= Z.of_nat (List.length (garr g)).
Proof.
  intros H. pose proof (tile_seg g [] [] 0 eq_refl) as F. cbn [app] in F. rewrite app_nil_r in F.
  unfold layout in H. remember (tile 0 (widths g)) as T eqn:E. clear E. set (k := gkey g) in *; set (a := garr g) in *; clearbody k a.
  induction F as [|[c' b'] sl g T (H1 & H2 & H3 & H4) F IH]; [destruct H|]. destruct H as [H|H].
  - cbn in H. injection H as <- <-. exists b'. cbn in *. repeat split; auto.
  - destruct (IH H) as (b & H5 & H6). exists b. split; [now right|exact H6].
Qed.

(* in one group, non-empty components start at different positions *)
Lemma tile_starts_ge g : forall i pr, In pr (combine (map fst g) (tile i (widths g))) -> i <= fst (snd pr).
Proof.
  induction g as [|[c b] g IH]; intros i pr; cbn; [intros []|]. intros [<- | H]; [cbn; lia|].
  apply IH in H. lia.
Qed.

Lemma tile_starts g : forall i c sl c' sl', In (c, sl) (combine (map fst g) (tile i (widths g))) ->
  In (c', sl') (combine (map fst g) (tile i (widths g))) ->
  fst sl < snd sl -> fst sl' < snd sl' -> fst sl = fst sl' -> c = c'.
Proof.
  induction g as [|[c0 b] g IH]; intros i c sl c' sl'; cbn; [intros []|].
  intros [H|H] [H'|H'] P P' E.
  - injection H as <- <-. now injection H' as <- <-.
  - injection H as <- <-. apply tile_starts_ge in H'. cbn in *. lia.
  - injection H' as <- <-. apply tile_starts_ge in H. cbn in *. lia.
  - eapply IH; eassumption.
Qed.

Lemma layout_starts g c c' p p' : In (c, p) (layout g) -> In (c', p') (layout g) ->
  fst (snd p) < snd (snd p) -> fst (snd p') < snd (snd p') -> fst (snd p) = fst (snd p') -> c = c'.
Proof.
  unfold layout. intros H H'. apply in_map_iff in H as ([x sl] & [= <- <-] & H). apply in_map_iff in H' as ([x' sl'] & [= <- <-] & H').
  cbn. eapply tile_starts; eassumption.
Qed.

(** ** Items *)

Lemma writable_clean g : writable_group g -> writable (map fst g).
Proof.
  intros (H1 & H2 & H3). split; [|split; [destruct g; cbn; congruence|exact H3]].
  clear -H1. induction H1 as [|cb g (A & B & _) H IH]; cbn; constructor; [split; assumption|exact IH].
Qed.

Section Item.
Context (gs : list (@group X)) (item : list (string * list X)) (Hi : item_of gs item).

Lemma holds_fun c b b' : holds gs c b -> holds gs c b' -> b = b'.
Proof.
  pose proof Hi as (_ & _ & Hnd). unfold holds. intros H H'.
  apply (dict_In_get _ _ _ Hnd) in H. apply (dict_In_get _ _ _ Hnd) in H'. congruence.
Qed.

Lemma group_holds g c b : In g gs -> In (c, b) g -> holds gs c b.
Proof. intros H H'. unfold holds. apply in_concat. eauto. Qed.

Lemma gkey_inj g g' : In g gs -> In g' gs -> gkey g = gkey g' -> g = g'.
Proof.
  intros H H' E. pose proof Hi as (_ & Hw & Hnd). rewrite Forall_forall in Hw.
  pose proof (writable_clean _ (Hw _ H)) as (C1 & C2 & _). pose proof (writable_clean _ (Hw _ H')) as (C1' & C2' & _).
  apply (f_equal (split "|")) in E. unfold gkey in E. rewrite !split_fspec in E by assumption.

  assert (G : forall c b b', In (c, b) g -> In (c, b') g' -> b = b').
  { intros c b b' Hb Hb'. exact (holds_fun c b b' (group_holds g c b H Hb) (group_holds g' c b' H' Hb')). }
  clear -E G. revert g' E G. induction g as [|[c b] g IH]; intros [|[c' b'] g'] E G; cbn in E; try discriminate; [reflexivity|].
  injection E as <- E. f_equal; [f_equal; apply (G c); now left|]. apply IH; [exact E|].
  intros x y y' Hy Hy'. apply (G x); now right.
Qed.

Lemma item_get g : In g gs -> dict_index (gkey g) item = Ok (garr g).
Proof.
  intros H. unfold dict_index. assert (G : dict_get (gkey g) item = Some (garr g)); [|now rewrite G].
  pose proof gkey_inj as J. pose proof Hi as (-> & _ & _).
  assert (J' : forall g', In g' gs -> gkey g = gkey g' -> g = g') by (intros; apply J; auto). clear J Hi.
  induction gs as [|g0 gs' IH]; [destruct H|]. cbn. destruct (String.eqb_spec (gkey g) (join "|" (map fst g0))) as [E|N].
  - rewrite (J' g0 (or_introl eq_refl) E). reflexivity.
  - destruct H as [->|H]; [now contradiction N|]. apply IH; [exact H|]. intros g' Hg'. apply J'. now right.
Qed.

Definition entry (c : string) (p : piece) : Prop := exists g, In g gs /\ In (c, p) (layout g).

Lemma entry_keys c p : entry c p -> exists b, holds gs c b /\ 0 <= fst (snd p) /\ snd (snd p) = fst (snd p) + Z.of_nat (List.length b) /\
  exists a, dict_index (fst p) item = Ok a /\ seg a (snd p) = b /\ snd (snd p) <= Z.of_nat (List.length a).
Proof.
  intros (g & Hg & H). apply layout_entry_inv in H as (b & Hb & Hk & Hs & H0 & H1 & H2). exists b.
  split; [eapply group_holds; eassumption|]. split; [exact H0|]. split; [exact H1|]. exists (garr g). rewrite Hk. split; [now apply item_get|auto].
Qed.

Lemma entry_fun c p p' : entry c p -> entry c p' -> p = p'.
Proof.
  intros (g & Hg & H) (g' & Hg' & H').
  assert (Hnd : NoDup (map fst (List.concat (map layout gs)))).
  { pose proof Hi as (_ & _ & Hnd). replace (map fst (List.concat (map layout gs))) with (map fst (List.concat gs)); [exact Hnd|].
    clear. induction gs as [|g gs' IH]; [reflexivity|]. cbn. now rewrite !map_app, layout_keys, IH. }
  assert (In (c, p) (List.concat (map layout gs))) as I1 by (apply in_concat; eexists; split; [apply in_map; exact Hg|exact H]).
  assert (In (c, p') (List.concat (map layout gs))) as I2 by (apply in_concat; eexists; split; [apply in_map; exact Hg'|exact H']).
  apply (dict_In_get _ _ _ Hnd) in I1. apply (dict_In_get _ _ _ Hnd) in I2. congruence.
Qed.

Lemma entry_starts c c' p p' : entry c p -> entry c' p' -> fst (snd p) < snd (snd p) -> fst (snd p') < snd (snd p') ->
  fst p = fst p' -> fst (snd p) = fst (snd p') -> c = c'.
Proof.
  intros (g & Hg & H) (g' & Hg' & H') P P' E1 E2. 
  assert (g = g').
  { apply gkey_inj; auto. apply layout_entry_inv in H as (_ & _ & <- & _). apply layout_entry_inv in H' as (_ & _ & <- & _). exact E1. }
  subst g'. eapply layout_starts; eassumption.
Qed.

Lemma holds_entry c b : holds gs c b -> exists p, entry c p.
Proof.
  intros H. unfold holds in H. apply in_concat in H as (g & Hg & H). apply layout_entry in H as (sl & Hl & _).
  exists (gkey g, sl), g. auto.
Qed.

(** ** The component indices of the item keys *)

Lemma sized_denotes g : writable_group g -> exists names, denotes_all (map fst g) names.
Proof.
  intros (H & _). assert (G : exists ls, Forall2 denotes (map fst g) ls).
  { clear -H. induction H as [|cb g (_ & _ & n & Hn & _) H (ls & IH)]; [exists []; constructor|]. exists (n :: ls). now constructor. }
  destruct G as (ls & G). exists (List.concat ls). exists ls. auto.
Qed.

Lemma read_gkey g : writable_group g -> read_streams (gkey g) = [map fst g].
Proof. intros H. apply (read_join [map fst g]). constructor; [now apply writable_clean|constructor]. Qed.

Lemma concat_NoDup_in {A B} (f : A -> B) (l : list A) (ls : list (list A)) : In l ls -> NoDup (map f (List.concat ls)) -> NoDup (map f l).
Proof.
  induction ls as [|l0 ls IH]; [intros []|]. cbn. rewrite map_app. intros [->|H] Hnd.
  - clear -Hnd. induction l as [|a l IH]; [constructor|]. cbn in *. inversion Hnd; subst. constructor; auto.
    intros Hin. apply H1. apply in_or_app. now left.
  - apply IH; [exact H|]. clear -Hnd. induction l0 as [|a l0 IH]; [exact Hnd|]. cbn in Hnd. inversion Hnd; subst. auto.
Qed.

Lemma component_layout g : In g gs -> component_indices (mkC (gkey g) None) = Ok (layout g).
Proof.
  intros Hg. pose proof Hi as (_ & Hw & Hnd). rewrite Forall_forall in Hw. specialize (Hw g Hg).
  destruct (sized_denotes g Hw) as (names & Hn).
  destruct (component_indices_spec (gkey g) names) as (d & szss & Hd & HF & ->).
  - rewrite (read_gkey g Hw). cbn. rewrite app_nil_r. eapply concat_NoDup_in; eassumption.
  - rewrite (read_gkey g Hw). constructor; [intros []|constructor].
  - rewrite (read_gkey g Hw). cbn. now rewrite app_nil_r.
  - rewrite Hd. f_equal. rewrite (read_gkey g Hw) in *. inversion HF as [|? szs ? ? Hs HF']; subst. inversion HF'; subst.
    cbn. rewrite app_nil_r. unfold layout, gkey. f_equal. f_equal. f_equal.
    destruct Hw as (Hw & _). unfold widths. clear -Hs Hw. revert szs Hs. induction Hw as [|cb g (_ & _ & n & Hn & Hl) Hw IH]; intros szs Hs; inversion Hs as [|? z ? szs' (n' & Hn' & ->) Hs']; subst; [reflexivity|].
    cbn. rewrite (IH _ Hs'). f_equal. rewrite (denotes_functional _ _ _ Hn' Hn), Hl. reflexivity.
Qed.

Lemma dict_update_get {A} (e d : list (string * A)) c p : dict_get c (dict_update d e) = Some p ->
  In (c, p) e \/ dict_get c d = Some p.
Proof.
  revert d. induction e as [|[k v] e IH]; intros d; cbn; [auto|]. intros H. apply IH in H as [H|H]; [auto|].
  destruct (string_dec c k) as [->|N].
  - rewrite dict_get_set_same in H. injection H as <-. auto.
  - rewrite dict_get_set_other in H by exact N. auto.
Qed.

Lemma dict_update_keys {A} (e d : list (string * A)) c : In c (map fst (dict_update d e)) <-> In c (map fst e) \/ In c (map fst d).
Proof.
  revert d. induction e as [|[k v] e IH]; intros d; cbn; [tauto|]. unfold dict_update in IH. rewrite IH, dict_set_In. intuition.
Qed.

Lemma item_indices_ok keys : forall d, Forall (fun k => exists g, In g gs /\ k = gkey g) keys ->
  (forall c p, dict_get c d = Some p -> entry c p) ->
  exists idx, item_indices keys d = Ok idx /\ (forall c p, dict_get c idx = Some p -> entry c p) /\
    (forall c, In c (map fst d) -> In c (map fst idx)) /\
    (forall g c, In g gs -> In (gkey g) keys -> In c (map fst g) -> In c (map fst idx)).
Proof.
  induction keys as [|k keys IH]; intros d Hk Hd; cbn [item_indices].
  - exists d. split; [reflexivity|]. split; [exact Hd|]. split; [auto|]. intros g c _ [].
  - inversion Hk as [|? ? (g & Hg & ->) Hk']; subst. rewrite (component_layout g Hg). cbn [bind].
    destruct (IH (dict_update d (layout g)) Hk') as (idx & H1 & H2 & H3 & H4).
    { intros c p H. apply dict_update_get in H as [H|H]; [exists g; auto|auto]. }
    exists idx. split; [exact H1|]. split; [exact H2|]. split.
    + intros c Hc. apply H3. apply dict_update_keys. now right.
    + intros g' c Hg' [E|Hin] Hc; [|now apply (H4 g')]. assert (g' = g) by (apply gkey_inj; auto). subst g'.
      apply H3. apply dict_update_keys. left. now rewrite layout_keys.
Qed.

(** ** Merging slices *)

Definition pseg (p : piece) : list X := match dict_index (fst p) item with Ok a => seg a (snd p) | Err _ => [] end.
Definition fits (p : piece) : Prop := 0 <= fst (snd p) <= snd (snd p) /\
  exists a, dict_index (fst p) item = Ok a /\ snd (snd p) <= Z.of_nat (List.length a).
Definition pstart (p : piece) : string * Z := (fst p, fst (snd p)).

Lemma pseg_merge x y : fits x -> fits y -> fst y = fst x -> fst (snd y) = snd (snd x) ->
  (pseg x ++ pseg y)%list = pseg (fst x, (fst (snd x), snd (snd y))) /\ fits (fst x, (fst (snd x), snd (snd y))).
Proof.
  intros (B & a & Ha & Hl) (B' & a' & Ha' & Hl') E1 E2. rewrite E1, Ha in Ha'. injection Ha' as <-.
  unfold pseg, fits. cbn [fst snd]. rewrite E1, Ha. split; [|split; [lia|eauto]].
  destruct x as [kx [x0 x1]], y as [ky [y0 y1]]. cbn in *. subst. apply seg_split; lia.
Qed.

Definition run_ok (prev : option piece) (accum : list piece) (l : list piece) : Prop :=
  (accum = [] /\ prev = None) \/
  (exists x, accum = [x] /\ prev = Some x) \/
  (exists x y, accum = [x; y] /\ prev = Some x /\ fst y = fst x /\ fst (snd y) = snd (snd x) /\
     ~ In (fst x, snd (snd x)) (map pstart l)).

Lemma flush_pieces accum l : run_ok (match accum with [] => None | x :: _ => Some x end) accum l -> Forall fits accum ->
  List.concat (map pseg (map merged (flush accum))) = List.concat (map pseg accum) /\ Forall fits (map merged (flush accum)).
Proof.
  intros [[-> _]|[(x & -> & _)|(x & y & -> & _ & E1 & E2 & _)]] Hf; cbn.
  - auto.
  - destruct x as [k [a b]]. cbn. auto.
  - inversion Hf as [|? ? Fx Hf']; subst. inversion Hf' as [|? ? Fy _]; subst.
    destruct (pseg_merge x y Fx Fy E1 E2) as [H1 H2]. rewrite !app_nil_r, H1. auto.
Qed.

Lemma merge_pieces l : forall prev accum, run_ok prev accum l -> Forall fits accum -> Forall fits l -> NoDup (map pstart l) ->
  List.concat (map pseg (map merged (merge_runs prev accum l))) = (List.concat (map pseg accum) ++ List.concat (map pseg l))%list /\
  Forall fits (map merged (merge_runs prev accum l)).
Proof.
  induction l as [|[k sl] l IH]; intros prev accum Hr Ha Hl Hnd.
  - cbn [merge_runs map List.concat]. rewrite app_nil_r. apply (flush_pieces accum []); [|exact Ha].
    destruct Hr as [[-> ->]|[(x & -> & ->)|(x & y & -> & -> & R)]]; [left; auto|right; left; eauto|right; right; eauto 6].
  - cbn [map] in Hnd. inversion Hnd as [|? ? Hn Hnd']; subst. inversion Hl as [|? ? Fl Hl']; subst. cbn [merge_runs].
    destruct (match prev with Some (pkey, psl) => (pkey =? k)%string && (snd psl =? fst sl) | None => false end) eqn:E.
    + destruct Hr as [[-> ->]|[(x & -> & ->)|(x & y & -> & -> & E1 & E2 & Hout)]]; [discriminate| |].
      * destruct x as [kx slx]. apply andb_prop in E as [E1 E2]. apply String.eqb_eq in E1. subst kx.
        destruct (IH (Some (k, slx)) ([(k, slx)] ++ [(k, sl)])%list) as [H1 H2].
        { right. right. exists (k, slx), (k, sl). cbn. repeat split; auto; [lia|].
          replace (snd slx) with (fst sl) by lia. exact Hn. }
        { apply Forall_app. auto. }
        { exact Hl'. }
        { exact Hnd'. }
        split; [etransitivity; [exact H1|]|exact H2]. cbn. rewrite ?app_nil_r, <- ?app_assoc. reflexivity.
      * exfalso. destruct x as [kx slx]. apply andb_prop in E as [G1 G2]. apply String.eqb_eq in G1. subst kx. apply Hout. left.
        unfold pstart. cbn. f_equal. lia.
    + destruct (IH (Some (k, sl)) [(k, sl)]) as [H1 H2]; [right; left; eauto|auto|exact Hl'|exact Hnd'|].
      destruct (flush_pieces accum []) as [H3 H4].
      { destruct Hr as [[-> ->]|[(x & -> & ->)|(x & y & -> & -> & E1 & E2 & _)]]; [left; auto|right; left; eauto|].
        right; right. exists x, y. cbn. auto 10. }
      { exact Ha. }
      rewrite !map_app, concat_app, H1, H3. split; [|apply Forall_app; auto]. cbn. now rewrite app_nil_r.
Qed.

Lemma merge_runs_nonempty l prev accum : accum <> [] \/ l <> [] -> merge_runs prev accum l <> [].
Proof.
  revert prev accum. induction l as [|[k sl] l IH]; intros prev accum H; cbn [merge_runs].
  - destruct accum; [destruct H; congruence|discriminate].
  - destruct (match prev with Some (pkey, psl) => (pkey =? k)%string && (snd psl =? fst sl) | None => false end).
    + apply IH. left. destruct accum; discriminate.
    + intros E. apply app_eq_nil in E as [_ E]. revert E. apply IH. left. discriminate.
Qed.

Lemma gather_pieces l : Forall fits l -> l <> [] -> gather item l = Ok (List.concat (map pseg l)).
Proof.
  intros H Hne. unfold gather.
  assert (G : mapR (fun p : piece => a <- dict_index (fst p) item;; Ok (seg a (snd p))) l = Ok (map pseg l)).
  { clear Hne. induction H as [|p l (_ & a & Ha & _) H IH]; [reflexivity|]. cbn [mapR map]. unfold pseg at 1. rewrite Ha. cbn [bind]. now rewrite IH. }
  match goal with |- bind ?x _ = _ => change x with (mapR (fun p : piece => a <- dict_index (fst p) item;; Ok (seg a (snd p))) l) end. rewrite G. cbn [bind]. destruct l; [congruence|reflexivity].
Qed.

Lemma gather_stream codes ps bs : NoDup codes -> Forall2 (fun c p => entry c p) codes ps -> Forall2 (holds gs) codes bs ->
  Forall (fun b => b <> []) bs -> codes <> [] ->
  gather item (fused_pieces ps) = Ok (List.concat bs).
Proof.
  intros Hnd Hp Hb Hne Hc.
  assert (Hfit : Forall fits ps).
  { clear -Hp Hi. induction Hp as [|c p codes ps H Hp IH]; constructor; [|exact IH]. apply entry_keys in H as (b & _ & H0 & H1 & a & Ha & _ & H2).
    split; [lia|eauto]. }
  assert (Hseg : map pseg ps = bs).
  { clear -Hp Hb Hi. revert bs Hb. induction Hp as [|c p codes ps H Hp IH]; intros bs Hb; inversion Hb as [|? b ? bs' Hb1 Hb2]; subst; [reflexivity|].
    cbn. rewrite (IH _ Hb2). f_equal. apply entry_keys in H as (b' & Hh & _ & _ & a & Ha & Hs & _).
    unfold pseg. rewrite Ha, Hs. eapply holds_fun; eassumption. }
  assert (Hpos : Forall (fun p => fst (snd p) < snd (snd p)) ps).
  { clear -Hp Hb Hne Hi. revert bs Hb Hne. induction Hp as [|c p codes ps H Hp IH]; intros bs Hb Hne; inversion Hb as [|? b ? bs' Hb1 Hb2]; subst; constructor.
    - apply entry_keys in H as (b' & Hh & _ & H1 & _). rewrite (holds_fun _ _ _ Hh Hb1) in H1. inversion Hne; subst. destruct b; [congruence|]. cbn in H1. lia.
    - inversion Hne; subst. eapply IH; eassumption. }
  assert (Hst : NoDup (map pstart ps)).
  { clear -Hp Hnd Hpos Hi. revert Hnd Hpos. induction Hp as [|c p codes ps H Hp IH]; intros Hnd Hpos; cbn; constructor; inversion Hnd; inversion Hpos; subst; auto.
    intros Hin. apply in_map_iff in Hin as (p' & E & Hp'). injection E as E1 E2.
    assert (G : exists c', In c' codes /\ entry c' p').
    { clear -Hp Hp'. induction Hp as [|c0 p0 codes ps H0 Hp IH]; [destruct Hp'|]. destruct Hp' as [->|Hp'].
      - exists c0. split; [now left|exact H0].
      - destruct (IH Hp') as (c' & ? & ?). exists c'. split; [now right|assumption]. }
    destruct G as (c' & Hc' & He). assert (c = c').
    { eapply entry_starts; eauto. match goal with F : Forall _ ps |- _ => rewrite Forall_forall in F; now apply F end. }
    subst c'. contradiction. }
  destruct (merge_pieces ps None [] (or_introl (conj eq_refl eq_refl)) (Forall_nil _) Hfit Hst) as [H1 H2].
  unfold fused_pieces. rewrite gather_pieces; [|exact H2|].
  - rewrite H1. cbn. now rewrite Hseg.
  - intros E. apply map_eq_nil in E. revert E. apply merge_runs_nonempty. right. inversion Hp; subst; congruence.
Qed.

End Item.

(** ** Sorting *)

Lemma insert_key_perm {A} (kv : string * A) l : Permutation (insert_key kv l) (kv :: l).
Proof.
  induction l as [|x l IH]; cbn; [reflexivity|]. destruct (String.leb _ _); [reflexivity|].
  rewrite IH. apply perm_swap.
Qed.

Lemma sort_keys_perm {A} (l : list (string * A)) : Permutation (sort_keys l) l.
Proof. induction l as [|x l IH]; cbn; [reflexivity|]. rewrite insert_key_perm. now constructor. Qed.

(** ** encode, mode 1 *)

Lemma dict_of_pairs {A} (l : list (string * A)) k v : NoDup (map fst l) -> In (k, v) l -> dict_get k l = Some v.
Proof. intros. now apply dict_In_get. Qed.

Lemma parse_stream s k f : In (k, f) (parse_text s) -> In (codes f) (read_streams s) /\ k = join "|" (codes f) /\ codes f <> [].
Proof.
  intros H. assert (H' := H). apply parse_text_In in H as [H ->]. cbn [codes]. split.
  - apply parse_text_streams. apply in_map_iff. exists (k, mkF (split "|" k) false). auto.
  - split; [now rewrite join_split|]. intros E. apply (f_equal (join "|")) in E. rewrite join_split in E. cbn in E.
    apply filter_In in H as [_ H]. subst k. discriminate.
Qed.

Lemma stream_parse s l : In l (read_streams s) -> In (join "|" l, mkF l false) (parse_text s).
Proof.
  intros H. apply parse_text_streams in H. apply in_map_iff in H as ([k f] & E & H). assert (H' := H).
  apply parse_text_In in H as [H ->]. cbn in E. subst l. now rewrite join_split.
Qed.

Lemma mapR_total {A B} (f : A -> result B) (l : list A) : (forall x, In x l -> exists y, f x = Ok y) -> exists ys, mapR f l = Ok ys.
Proof.
  induction l as [|x l IH]; intros H; [now exists []|]. destruct (H x (or_introl eq_refl)) as (y & Hy).
  destruct IH as (ys & Hys); [intros; apply H; now right|]. exists (y :: ys). cbn. now rewrite Hy, Hys.
Qed.

Section Encode.
Context (gs : list (@group X)) (item : list (string * list X)) (Hi : item_of gs item) (s : string).

Lemma item_keys k : In k (map fst (sort_keys item)) <-> exists g, In g gs /\ k = gkey g.
Proof.
  assert (E : In k (map fst (sort_keys item)) <-> In k (map fst item)).
  { split; intros H; (eapply Permutation_in; [|exact H]); apply Permutation_map; [|symmetry]; apply sort_keys_perm. }
  rewrite E. pose proof Hi as (-> & _ & _). rewrite map_map. cbn [fst]. rewrite in_map_iff. split; intros (g & A & B); exists g; auto.
Qed.

Definition stored (codes : list string) : Prop := Forall (fun c => exists b, holds gs c b /\ b <> []) codes.

Lemma encode1_ok : gs <> [] -> (forall codes, In codes (read_streams s) -> NoDup codes /\ stored codes) ->
  exists out, encode1 (mkC s None) item = Ok out /\ NoDup (map fst out) /\
    (forall k, In k (map fst out) <-> In k (map (join "|") (read_streams s))) /\
    forall codes bs, In codes (read_streams s) -> Forall2 (holds gs) codes bs -> dict_get (join "|" codes) out = Some (List.concat bs).
Proof.
  intros Hne Hs. unfold encode1. destruct item as [|i0 item0] eqn:Ei.
  { pose proof Hi as (H & _). destruct gs; [congruence|discriminate]. }
  rewrite <- Ei in *. clear i0 item0 Ei.
  destruct (item_indices_ok gs item Hi (map fst (sort_keys item)) []) as (idx & H1 & H2 & _ & H4).
  { apply Forall_forall. intros k Hk. now apply item_keys. }
  { discriminate. }
  rewrite H1. cbn [bind].
  assert (Hidx : forall c b, holds gs c b -> exists p, dict_index c idx = Ok p /\ entry gs c p).
  { intros c b Hc. unfold holds in Hc. apply in_concat in Hc as (g & Hg & Hc).
    assert (Hin : In c (map fst idx)).
    { apply (H4 g); [exact Hg|apply item_keys; eauto|]. apply in_map_iff. exists (c, b). auto. }
    unfold dict_index. destruct (dict_get c idx) as [p|] eqn:E; [eauto|]. apply dict_get_None in E. contradiction. }
  change (cparse (mkC s None)) with (parse_text s).
  set (lookup := fun kv : string * fused => l <- mapR (fun p => dict_index p idx) (codes (snd kv));; Ok (fst kv, l)).
  assert (Hlook : forall codes, stored codes -> exists ps, mapR (fun p => dict_index p idx) codes = Ok ps /\ Forall2 (fun c p => entry gs c p) codes ps).
  { intros cs H. induction H as [|c cs (b & Hb & _) H (ps & E & F)]; [exists []; split; [reflexivity|constructor]|].
    destruct (Hidx _ _ Hb) as (p & Hp & He). exists (p :: ps). cbn. rewrite Hp, E. split; [reflexivity|now constructor]. }
  assert (Hblocks : forall codes, stored codes -> exists bs, Forall2 (holds gs) codes bs /\ Forall (fun b => b <> []) bs).
  { intros cs H. induction H as [|c cs (b & Hb & Hn) H (bs & F & G)]; [exists []; split; constructor|]. exists (b :: bs). split; now constructor. }
  set (P := sort_keys (parse_text s)).
  assert (HP : forall kv, In kv P <-> In kv (parse_text s)).
  { intros kv. unfold P. split; apply Permutation_in; [|symmetry]; apply sort_keys_perm. }
  assert (HPnd : NoDup (map fst P)).
  { eapply Permutation_NoDup; [|apply (parse_text_NoDup s)]. apply Permutation_map. symmetry. apply sort_keys_perm. }
  destruct (mapR_total lookup P) as (fi & Hfi).
  { intros [k f] H. apply HP in H. apply parse_stream in H as (H & _ & _). destruct (Hlook _ (proj2 (Hs _ H))) as (ps & E & _).
    unfold lookup. cbn [snd fst]. rewrite E. eexists; reflexivity. }
  rewrite Hfi. cbn [bind].
  apply mapR_Forall2 in Hfi.
  set (out1 := fun kv : string * list piece => a <- gather item (fused_pieces (snd kv));; Ok (fst kv, a)).
  assert (Hg : forall kv kl, In kv P -> lookup kv = Ok kl -> forall bs, Forall2 (holds gs) (codes (snd kv)) bs -> out1 kl = Ok (fst kv, List.concat bs)).
  { intros [k f] kl H E bs Hbs. apply HP in H. apply parse_stream in H as (H & _ & Hn). destruct (Hs _ H) as [Hnd Hst].
    destruct (Hlook _ Hst) as (ps & Eps & Fps). unfold lookup in E. cbn [snd fst] in *. rewrite Eps in E. injection E as <-.
    unfold out1. cbn [fst snd].
    destruct (Hblocks _ Hst) as (bs' & F & G).
    assert (bs' = bs).
    { clear -F Hbs Hi. revert bs Hbs. induction F as [|c b cs bs' Hb F IH]; intros bs Hbs; inversion Hbs; subst; [reflexivity|]. f_equal; [|auto].
      eapply holds_fun; eassumption. }
    subst bs'. rewrite (gather_stream gs item Hi (codes f) ps bs Hnd Fps Hbs G Hn). reflexivity. }
  destruct (mapR_total out1 fi) as (out & Hout).
  { intros kl Hkl. assert (G : exists kv, In kv P /\ lookup kv = Ok kl).
    { clear -Hfi Hkl. induction Hfi as [|kv kl' P fi H F IH]; [destruct Hkl|]. destruct Hkl as [->|Hkl]; [exists kv; split; [now left|exact H]|].
      destruct (IH Hkl) as (kv' & A & B). exists kv'. split; [now right|exact B]. }
    destruct G as ([k f] & HkP & Hl). assert (HkP' := HkP). apply HP in HkP. apply parse_stream in HkP as (H & _ & _).
    destruct (Hblocks _ (proj2 (Hs _ H))) as (bs & F & _). rewrite (Hg (k, f) kl HkP' Hl bs F). eauto. }
  exists out. split; [exact Hout|]. apply mapR_Forall2 in Hout.
  assert (HF : Forall2 (fun kv o => fst o = fst kv /\ forall bs, Forall2 (holds gs) (codes (snd kv)) bs -> o = (fst kv, List.concat bs)) P out).
  { clear -Hfi Hout Hg. assert (Hg' : forall kv kl, In kv P -> lookup kv = Ok kl -> forall bs, Forall2 (holds gs) (codes (snd kv)) bs -> out1 kl = Ok (fst kv, List.concat bs)) by exact Hg.
    clear Hg. revert out Hout. induction Hfi as [|kv kl P fi H F IH]; intros out Hout; inversion Hout as [|? o ? out' Ho Hout']; subst; constructor.
    - split.
      + unfold out1 in Ho. apply bind_ok in Ho as (a & _ & [= <-]). unfold lookup in H. apply bind_ok in H as (l & _ & [= <-]). reflexivity.
      + intros bs Hbs. rewrite (Hg' kv kl (or_introl eq_refl) H bs Hbs) in Ho. now injection Ho as <-.
    - apply IH; [|exact Hout']. intros; apply Hg'; [now right|assumption..]. }
  assert (Hk : map fst out = map fst P).
  { clear -HF. induction HF as [|kv o P out (H & _) F IH]; cbn; [reflexivity|]. now rewrite H, IH. }
  rewrite Hk. split; [exact HPnd|]. split.
  - intros k. rewrite !in_map_iff. split.
    + intros ([k' f] & E & H). cbn in E. subst k'. apply HP in H. apply parse_stream in H as (H & -> & _). eauto.
    + intros (l & <- & H). apply stream_parse in H. exists (join "|" l, mkF l false). split; [reflexivity|]. now apply HP.
  - intros cs bs Hcs Hbs. apply stream_parse in Hcs. apply HP in Hcs. apply dict_of_pairs; [now rewrite Hk|].
    clear -HF Hcs Hbs. induction HF as [|kv o P out (_ & H) F IH]; [destruct Hcs|]. destruct Hcs as [->|Hcs].
    + left. now apply H.
    + right. now apply IH.
Qed.

End Encode.

(** ** decode *)

Lemma decode_parts_ok key inputs a : dict_index key inputs = Ok a ->
  forall g pre post, a = (pre ++ garr g ++ post)%list ->
  forall d, decode_parts key inputs (Z.of_nat (List.length pre)) (combine (map fst g) (widths g)) d = Ok (dict_update d g).
Proof.
  intros Ha g. induction g as [|[c b] g IH]; intros pre post Hp d; cbn [map widths combine decode_parts]; [reflexivity|].
  rewrite Ha. cbn [bind fst snd]. fold (widths g).
  replace (Z.of_nat (List.length pre) + Z.of_nat (List.length b)) with (Z.of_nat (List.length (pre ++ b))) by (rewrite app_length; lia).
  rewrite (IH (pre ++ b)%list post).
  - rewrite Hp. unfold garr. cbn [map List.concat snd]. rewrite <- app_assoc, app_length, Nat2Z.inj_add.
    rewrite seg_mid by reflexivity. reflexivity.
  - rewrite Hp. unfold garr. cbn. now rewrite <- !app_assoc.
Qed.

Lemma sizes_group (g : @group X) b : Forall sized g -> sizes (mkF (map fst g) b) = Ok (widths g) \/ b = true.
Proof.
  destruct b; [auto|]. intros H. left. unfold sizes. cbn [isnorm codes]. unfold widths.
  induction H as [|cb g (n & Hn & Hl) H IH]; [reflexivity|]. cbn [map mapR]. rewrite code_size_expand.
  apply expand_denotes in Hn. rewrite Hn. cbn. rewrite IH. cbn. now rewrite Hl.
Qed.

(* streams given as groups: what decode makes of the stacked arrays *)
Lemma decode_streams_ok inputs : forall (p : list (string * fused)) (hs : list (@group X)) d,
  Forall2 (fun kv g => codes (snd kv) = map fst g /\ isnorm (snd kv) = false /\ Forall sized g /\ dict_index (fst kv) inputs = Ok (garr g)) p hs ->
  decode_streams p inputs d = Ok (dict_update d (List.concat hs)).
Proof.
  intros p hs d F. revert d. induction F as [|[k f] g p hs (H1 & H2 & H3 & H4) F IH]; intros d; [reflexivity|].
  cbn [decode_streams fst snd] in *. destruct f as [cs b]. cbn in H1, H2. subst cs b.
  destruct (sizes_group g false H3) as [E|E]; [|discriminate]. rewrite E. cbn [bind codes].
  rewrite (decode_parts_ok k inputs (garr g) H4 g [] [] ltac:(cbn; now rewrite app_nil_r)). cbn [bind].
  rewrite IH. cbn. unfold dict_update. now rewrite fold_left_app.
Qed.

Lemma dict_update_get_new {A} (e d : list (string * A)) c p : NoDup (map fst e) -> In (c, p) e -> dict_get c (dict_update d e) = Some p.
Proof.
  revert d. induction e as [|[k v] e IH]; intros d Hnd; [intros []|]. cbn in Hnd. inversion Hnd as [|? ? Hn Hnd']; subst.
  intros [[= -> ->]|H]; [|now apply IH]. cbn. fold (dict_update (dict_set c p d) e).
  assert (G : forall d', dict_get c d' = Some p -> dict_get c (dict_update d' e) = Some p); [|apply G, dict_get_set_same].
  clear -Hn. induction e as [|[k v] e IH]; intros d' H; [exact H|]. cbn. apply IH; [intros X0; apply Hn; now right|].
  rewrite dict_get_set_other; [exact H|]. intros ->. apply Hn. now left.
Qed.

Lemma dict_update_get_fun {A} (e d : list (string * A)) (R : string -> A -> Prop) c p :
  (forall c p p', R c p -> R c p' -> p = p') -> (forall k v, In (k, v) e -> R k v) -> (forall k v, In (k, v) d -> R k v) ->
  In (c, p) (d ++ e) -> dict_get c (dict_update d e) = Some p.
Proof.
  intros Hf He Hd H.
  assert (Hin : In c (map fst (dict_update d e))).
  { apply dict_update_keys. rewrite in_app_iff in H. destruct H as [H|H]; [right|left]; now apply (in_map fst) in H. }
  destruct (dict_get c (dict_update d e)) as [q|] eqn:E; [|apply dict_get_None in E; contradiction].
  f_equal. apply (Hf c).
  - apply dict_update_get in E as [E|E]; [now apply He|]. apply Hd. now apply dict_get_In.
  - rewrite in_app_iff in H. destruct H; auto.
Qed.

Section Decode.
Context (gs : list (@group X)) (item : list (string * list X)) (Hi : item_of gs item) (s : string).

Lemma group_of codes bs : Forall2 (holds gs) codes bs -> map fst (combine codes bs) = codes /\ map snd (combine codes bs) = bs /\
  Forall (fun cb => holds gs (fst cb) (snd cb)) (combine codes bs).
Proof. intros H. induction H as [|c b cs bs Hb H (A & B & C)]; cbn; [auto|]. rewrite A, B. auto. Qed.

Lemma holds_sized c b : holds gs c b -> sized (c, b).
Proof.
  unfold holds. intros H. apply in_concat in H as (g & Hg & H). pose proof Hi as (_ & Hw & _). rewrite Forall_forall in Hw.
  destruct (Hw g Hg) as (A & _). rewrite Forall_forall in A. apply (A (c, b)) in H as (_ & _ & H). exact H.
Qed.

Lemma decode_ok inputs : (forall codes, In codes (read_streams s) -> Forall (fun c => exists b, holds gs c b) codes) ->
  (forall codes bs, In codes (read_streams s) -> Forall2 (holds gs) codes bs -> dict_get (join "|" codes) inputs = Some (List.concat bs)) ->
  exists comps, decode (mkC s None) inputs = Ok comps /\
    (forall c, In c (map fst comps) <-> exists codes, In codes (read_streams s) /\ In c codes) /\
    (forall c b, In c (map fst comps) -> holds gs c b -> dict_get c comps = Some b).
Proof.
  intros Hs Hin. unfold decode. cbn [cparse cparsed ctext].
  assert (G : exists hs : list (@group X), Forall2 (fun kv g => codes (snd kv) = map fst g /\ isnorm (snd kv) = false /\ Forall sized g /\ dict_index (fst kv) inputs = Ok (garr g)) (parse_text s) hs /\
     (forall g, In g hs -> Forall (fun cb => holds gs (fst cb) (snd cb)) g) /\
     forall c, In c (map fst (List.concat hs)) <-> exists cs, In cs (map (fun kv => codes (snd kv)) (parse_text s)) /\ In c cs).
  { assert (HP : forall kv, In kv (parse_text s) -> In kv (parse_text s)) by auto. revert HP. generalize (parse_text s) at 1 3 4 as P.
    induction P as [|[k f] P IH]; intros HP.
    - exists []. split; [constructor|]. split; [intros g []|]. intros c. cbn. split; [intros []|]. intros (? & [] & _).
    - destruct IH as (hs & F & A & B); [intros; apply HP; now right|].
      assert (Hkf := HP _ (or_introl eq_refl)). assert (Hkf' := Hkf). apply parse_stream in Hkf as (H1 & H2 & _).
      apply parse_text_In in Hkf' as [_ Hf].
      assert (E : exists bs, Forall2 (holds gs) (codes f) bs).
      { specialize (Hs _ H1). clear -Hs. induction Hs as [|c cs (b & Hb) H (bs & IH)]; [exists []; constructor|]. exists (b :: bs). now constructor. }
      destruct E as (bs & Hbs). destruct (group_of _ _ Hbs) as (G1 & G2 & G3).
      exists (combine (codes f) bs :: hs). split; [|split].
      + constructor; [|exact F]. cbn [fst snd]. split; [now rewrite G1|]. split; [now rewrite Hf|]. split.
        * eapply Forall_impl; [|exact G3]. intros [c b]. cbn. apply holds_sized.
        * unfold dict_index. rewrite H2, (Hin _ _ H1 Hbs). unfold garr. now rewrite G2.
      + intros g [<-|Hg]; [exact G3|now apply A].
      + intros c. cbn [List.concat]. rewrite map_app, in_app_iff, G1, B. cbn [map snd]. split.
        * intros [Hc|(cs & Hcs & Hc)]; [exists (codes f); split; [now left|exact Hc]|exists cs; split; [now right|exact Hc]].
        * intros (cs & [<-|Hcs] & Hc); [now left|right; eauto]. }
  destruct G as (hs & F & A & B). rewrite (decode_streams_ok inputs _ hs [] F).
  exists (dict_update [] (List.concat hs)). split; [reflexivity|].
  assert (K : forall c, In c (map fst (dict_update [] (List.concat hs))) <-> In c (map fst (List.concat hs))).
  { intros c. rewrite dict_update_keys. cbn. tauto. }
  split.
  - intros c. rewrite K, B. split; intros (cs & H & Hc); exists cs; (split; [|exact Hc]); [now apply parse_text_streams|now apply parse_text_streams].
  - intros c b Hc Hb. apply (dict_update_get_fun _ _ (holds gs)).
    + intros c0 p p'. now apply (holds_fun gs item Hi).
    + intros k v H. apply in_concat in H as (g & Hg & H). specialize (A g Hg). rewrite Forall_forall in A. exact (A _ H).
    + intros k v [].
    + cbn [app]. apply K in Hc. apply in_map_iff in Hc as ([c' b'] & E & H). cbn in E. subst c'.
      assert (b = b'); [|now subst]. eapply (holds_fun gs item Hi); [exact Hb|]. apply in_concat in H as (g & Hg & H). specialize (A g Hg).
      rewrite Forall_forall in A. exact (A _ H).
Qed.

End Decode.

(** ** encode, mode 0 *)

Lemma item_components_ok (gs0 : list (@group X)) : forall d,
  Forall writable_group gs0 ->
  item_components (map (fun g => (join "|" (map fst g), List.concat (map snd g))) gs0) d = Ok (fold_left (fun d g => dict_update d (dict_update [] g)) gs0 d).
Proof.
  induction gs0 as [|g gs0 IH]; intros d H; [reflexivity|]. inversion H as [|? ? Hg H']; subst. cbn [map item_components fold_left].
  unfold decode. cbn [cparse cparsed ctext]. fold (gkey g). fold (garr g).
  assert (HP : parse_text (gkey g) = [(gkey g, mkF (map fst g) false)]).
  { pose proof (writable_clean g Hg) as (C1 & C2 & C3). unfold parse_text, gkey.
    rewrite (split_join "," [join "|" (map fst g)]) at 1; [|discriminate|constructor; [now apply join_no_comma|constructor]].
    cbn [filter]. destruct (String.eqb_spec (join "|" (map fst g)) "") as [E|_]; [now apply join_nonempty in E|].
    cbn. now rewrite split_fspec. }
  rewrite HP. rewrite (decode_streams_ok _ _ [g]).
  - cbn [bind List.concat]. rewrite app_nil_r. apply IH. exact H'.
  - constructor; [|constructor]. cbn. split; [reflexivity|]. split; [reflexivity|]. split.
    + destruct Hg as (Hg & _). eapply Forall_impl; [|exact Hg]. cbn. intros a (_ & _ & Ha). exact Ha.
    + unfold dict_index. cbn. now rewrite String.eqb_refl.
Qed.

Lemma components_get gs0 item : item_of gs0 item -> forall c b, holds gs0 c b -> forall d, (forall k v, In (k, v) d -> holds gs0 k v) ->
  dict_get c (fold_left (fun d g => dict_update d (dict_update [] g)) gs0 d) = Some b.
Proof.
  intros Hi0 c b Hb.
  assert (G : forall l (d : list (string * list X)), (forall g, In g l -> In g gs0) -> (forall k v, In (k, v) d -> holds gs0 k v) ->
     (In c (map fst d) \/ exists g, In g l /\ In c (map fst g)) -> dict_get c (fold_left (fun d g => dict_update d (dict_update [] g)) l d) = Some b).
  { intros l. induction l as [|g l IH]; intros d Hl Hd Hc.
    - destruct Hc as [Hc|(g & [] & _)]. cbn. destruct (dict_get c d) as [v|] eqn:E; [|apply dict_get_None in E; contradiction].
      f_equal. eapply (holds_fun gs0 item Hi0); [|exact Hb]. apply Hd. now apply dict_get_In.
    - cbn [fold_left]. apply IH; [intros; apply Hl; now right| |].
      + assert (U : forall (e d : list (string * list X)), (forall k v, In (k, v) e -> holds gs0 k v) -> (forall k v, In (k, v) d -> holds gs0 k v) ->
          forall k v, In (k, v) (dict_update d e) -> holds gs0 k v).
        { clear. intros e. induction e as [|[k0 v0] e IH]; intros d He Hd k v H; [now apply Hd|]. cbn in H.
          eapply IH; [| |exact H]; [intros; apply He; now right|]. intros k1 v1 H1.
          assert (J : In (k1, v1) d \/ (k1, v1) = (k0, v0)).
          { clear -H1. induction d as [|[k2 v2] d IH]; cbn in H1; [destruct H1 as [<-|[]]; auto|].
            destruct (String.eqb k0 k2) eqn:Ek; cbn in H1.
            - apply String.eqb_eq in Ek. subst. destruct H1 as [<-|H1]; [auto|left; now right].
            - destruct H1 as [<-|H1]; [left; now left|]. apply IH in H1 as [H1|H1]; [left; now right|auto]. }
          destruct J as [J|[= -> ->]]; [now apply Hd|]. apply He. now left. }
        apply U; [|exact Hd]. apply U; [|intros k v []]. intros k v H. eapply group_holds; [apply Hl; now left|exact H].
      + destruct Hc as [Hc|(g' & [<-|Hg'] & Hc)].
        * left. apply dict_update_keys. now right.
        * left. apply dict_update_keys. left. apply dict_update_keys. now left.
        * right. eauto. }
  intros d Hd. apply G; [auto|exact Hd|]. right. unfold holds in Hb. apply in_concat in Hb as (g & Hg & Hb). exists g. split; [exact Hg|].
  apply in_map_iff. exists (c, b). auto.
Qed.

Lemma encode0_ok gs0 item s : item_of gs0 item -> gs0 <> [] ->
  (forall codes, In codes (read_streams s) -> Forall (fun c => atomic c /\ exists b, holds gs0 c b) codes) ->
  exists out, encode0 (mkC s None) item = Ok out /\ NoDup (map fst out) /\
    (forall k, In k (map fst out) <-> In k (map (join "|") (read_streams s))) /\
    forall codes bs, In codes (read_streams s) -> Forall2 (holds gs0) codes bs -> dict_get (join "|" codes) out = Some (List.concat bs).
Proof.
  intros Hi0 Hne Hs. unfold encode0. destruct item as [|i0 item0] eqn:Ei.
  { pose proof Hi0 as (H & _). destruct gs0; [congruence|discriminate]. }
  rewrite <- Ei in *. clear i0 item0 Ei.
  assert (Ei : item = map (fun g => (join "|" (map fst g), List.concat (map snd g))) gs0) by apply Hi0.
  assert (Ec : item_components item [] = Ok (fold_left (fun d g => dict_update d (dict_update [] g)) gs0 [])) by (rewrite Ei; apply item_components_ok, Hi0). rewrite Ec. cbn [bind]. change (cparse (mkC s None)) with (parse_text s).
  pose proof (components_get gs0 item Hi0) as Hget.
  set (comps := fold_left (fun d g => dict_update d (dict_update [] g)) gs0 []).
  assert (Hc : forall c b, holds gs0 c b -> dict_index c comps = Ok b).
  { intros c b Hb. unfold dict_index. unfold comps. rewrite (Hget c b Hb []); [reflexivity|intros k v []]. }
  set (F := fun kv : string * fused => _).
  assert (HF : forall kv, In kv (parse_text s) -> exists bs, Forall2 (holds gs0) (codes (snd kv)) bs /\ F kv = Ok (fst kv, List.concat bs)).
  { intros [k f] H. assert (H' := H). apply parse_stream in H as (H & _ & Hn). apply parse_text_In in H' as [_ Hf]. specialize (Hs _ H).
    assert (E : exists bs, Forall2 (holds gs0) (codes f) bs /\ mapR (fun k => dict_index k comps) (codes f) = Ok bs).
    { clear -Hs Hc. induction Hs as [|c cs (_ & b & Hb) Hs (bs & IH & E)]; [exists []; split; [constructor|reflexivity]|].
      exists (b :: bs). split; [now constructor|]. cbn. now rewrite (Hc _ _ Hb), E. }
    destruct E as (bs & Hbs & E). exists bs. split; [exact Hbs|]. unfold F. cbn [fst snd].
    destruct f as [cs nb]. cbn [codes] in *. rewrite normalize_atomic_id by (eapply Forall_impl; [|exact Hs]; cbn; tauto). cbn [bind codes].
    rewrite E. cbn [bind]. destruct bs; [inversion Hbs; subst; congruence|reflexivity]. }
  destruct (mapR_total F (parse_text s)) as (out & Hout).
  { intros kv H. destruct (HF kv H) as (bs & _ & E). eauto. }
  exists out. split; [exact Hout|]. apply mapR_Forall2 in Hout.
  assert (HO : Forall2 (fun kv o => fst o = fst kv /\ forall bs, Forall2 (holds gs0) (codes (snd kv)) bs -> o = (fst kv, List.concat bs)) (parse_text s) out).
  { revert HF Hout. generalize (parse_text s) as P. intros P HF Hout. clear -HF Hout Hi0. induction Hout as [|kv o P out H Hout IH]; constructor.
    - destruct (HF kv (or_introl eq_refl)) as (bs & Hbs & E). rewrite E in H. injection H as <-. split; [reflexivity|].
      intros bs' Hbs'. f_equal. f_equal. clear -Hbs Hbs' Hi0. revert bs' Hbs'. induction Hbs as [|c b cs bs Hb Hbs IH]; intros bs' Hbs'; inversion Hbs'; subst; [reflexivity|].
      f_equal; [eapply (holds_fun gs0 item Hi0); eassumption|auto].
    - apply IH. intros; apply HF. now right. }
  assert (Hk : map fst out = map fst (parse_text s)).
  { clear -HO. induction HO as [|kv o P out (H & _) HO IH]; cbn; [reflexivity|]. now rewrite H, IH. }
  rewrite Hk. split; [apply parse_text_NoDup|]. split.
  - intros k. rewrite !in_map_iff. split.
    + intros ([k' f] & E & H). cbn in E. subst k'. apply parse_stream in H as (H & -> & _). eauto.
    + intros (l & <- & H). apply stream_parse in H. exists (join "|" l, mkF l false). auto.
  - intros cs bs Hcs Hbs. apply stream_parse in Hcs. apply dict_of_pairs; [rewrite Hk; apply parse_text_NoDup|].
    clear -HO Hcs Hbs. induction HO as [|kv o P out (_ & H) HO IH]; [destruct Hcs|]. destruct Hcs as [->|Hcs].
    + left. now apply H.
    + right. now apply IH.
Qed.

End Layout.
