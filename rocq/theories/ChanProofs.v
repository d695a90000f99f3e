From Verif Require Import PyProofs ChanModel ChanSpec.
From Coq Require Import ZifyBool ZifyNat ZifyN.
Ltac Zify.zify_post_hook ::= Z.div_mod_to_equations.
Local Open Scope string_scope.

(** ** aliases *)

Lemma alias_lut_Some v l : alias_lut v = Some l <-> In (v, l) aliases.
Proof.
  unfold alias_lut, aliases. cbn.
  split.
  - intros H.
    destruct (String.eqb_spec v "rgb"); [subst; left; congruence|].
    destruct (String.eqb_spec v "rgba"); [subst; right; left; congruence|].
    destruct (String.eqb_spec v "dxdy"); [subst; do 2 right; left; congruence|].
    destruct (String.eqb_spec v "fxfy"); [subst; do 3 right; left; congruence|].
    discriminate.
  - intros H. repeat destruct H as [H|H]; try tauto; injection H as <- <-; reflexivity.
Qed.

Lemma alias_lut_None v : alias_lut v = None <-> ~ In v (map fst aliases).
Proof.
  split.
  - intros H Hi. apply in_map_iff in Hi as ([k l] & E & Hi). cbn in E; subst.
    apply alias_lut_Some in Hi. congruence.
  - intros H. destruct (alias_lut v) as [l|] eqn:E; [|reflexivity].
    apply alias_lut_Some in E. exfalso. apply H. apply in_map_iff. now exists (v, l).
Qed.

Lemma alias_members_atomic v l : In (v, l) aliases -> Forall atomic l.
Proof.
  cbn. intros H. repeat destruct H as [H|H]; try tauto; injection H as <- <-;
    repeat constructor; cbn; intuition discriminate.
Qed.

Lemma not_alias_dot r t : ~ In (r ++ String "." t) (map fst aliases).
Proof.
  intros H. assert (D : contains "." (r ++ String "." t) = true)
    by (rewrite contains_app; cbn; apply orb_true_r).
  cbn in H. repeat destruct H as [H|H]; try tauto; rewrite <- H in D; discriminate.
Qed.

Lemma not_alias_colon v : contains ":" v = true -> ~ In v (map fst aliases).
Proof.
  intros D H. cbn in H. repeat destruct H as [H|H]; try tauto; rewrite <- H in D; discriminate.
Qed.

(** ** int literals contain no separators *)

Definition int_char (c : ascii) : bool :=
  is_digit c || is_space c || Ascii.eqb c "_" || Ascii.eqb c "+" || Ascii.eqb c "-".
Fixpoint all_int_chars (s : string) : bool :=
  match s with EmptyString => true | String c s' => int_char c && all_int_chars s' end.

Lemma digit_val_char c d : digit_val c = Some d -> int_char c = true.
Proof. unfold int_char, is_digit. intros ->. reflexivity. Qed.

Lemma parse_digits_chars : forall s v n, parse_digits v s = Some n -> all_int_chars s = true.
Proof.
  fix IH 1. intros s v n H. destruct s as [|c s]; [reflexivity|]. cbn in H. cbn [all_int_chars].
  destruct (digit_val c) as [d|] eqn:E.
  - rewrite (digit_val_char _ _ E). cbn. eapply IH; eassumption.
  - destruct (Ascii.eqb c "_") eqn:E2; [|discriminate]. destruct s as [|c2 s2]; [discriminate|].
    destruct (digit_val c2) as [d|] eqn:E3; [|discriminate].
    cbn [all_int_chars]. rewrite (digit_val_char _ _ E3).
    unfold int_char. rewrite E2. rewrite !orb_true_r. cbn. eapply IH; eassumption.
Qed.

Lemma parse_nat_chars s n : parse_nat s = Some n -> all_int_chars s = true.
Proof.
  destruct s as [|c s]; cbn; [discriminate|].
  destruct (digit_val c) as [d|] eqn:E; [|discriminate]. intros H.
  rewrite (digit_val_char _ _ E). cbn. eapply parse_digits_chars; eassumption.
Qed.

Lemma lstrip_chars s : all_int_chars (lstrip s) = true -> all_int_chars s = true.
Proof.
  induction s as [|c s IH]; cbn; [reflexivity|]. destruct (is_space c) eqn:E; [|auto].
  intros H. rewrite (IH H). unfold int_char. rewrite E. rewrite !orb_true_r. reflexivity.
Qed.

Lemma rstrip_chars s : all_int_chars (rstrip s) = true -> all_int_chars s = true.
Proof.
  induction s as [|c s IH]; cbn; [reflexivity|].
  destruct (rstrip s) as [|c2 s2] eqn:E.
  - rewrite (IH eq_refl). destruct (is_space c) eqn:E2; intros H.
    + unfold int_char. rewrite E2. rewrite !orb_true_r. reflexivity.
    + cbn in H. rewrite andb_true_r in *. exact H.
  - intros H. cbn in H. apply andb_true_iff in H as [H1 H2]. rewrite H1. cbn. apply IH. exact H2.
Qed.

Lemma py_int_chars s z : py_int s = Ok z -> all_int_chars s = true.
Proof.
  unfold py_int. intros H. apply lstrip_chars, rstrip_chars.
  destruct (rstrip (lstrip s)) as [|c t]; [discriminate|].
  destruct (Ascii.eqb c "-") eqn:E1.
  - destruct (parse_nat t) eqn:E; [|discriminate]. cbn. rewrite (parse_nat_chars _ _ E).
    unfold int_char. rewrite E1, !orb_true_r. reflexivity.
  - destruct (Ascii.eqb c "+") eqn:E2.
    + destruct (parse_nat t) eqn:E; [|discriminate]. cbn. rewrite (parse_nat_chars _ _ E).
      unfold int_char. rewrite E2, !orb_true_r. reflexivity.
    + destruct (parse_nat (String c t)) eqn:E; [|discriminate]. eapply parse_nat_chars; eassumption.
Qed.

Lemma int_chars_no d s : int_char d = false -> all_int_chars s = true -> contains d s = false.
Proof.
  intros Hd. induction s as [|c s IH]; cbn; [reflexivity|]. intros H.
  apply andb_true_iff in H as [Hc Hs]. rewrite (IH Hs), orb_false_r.
  destruct (Ascii.eqb c d) eqn:E; [apply Ascii.eqb_eq in E; congruence|reflexivity].
Qed.

Lemma int_lit_no d s z : int_char d = false -> int_lit s z -> contains d s = false.
Proof. intros Hd H. eapply int_chars_no; [exact Hd|eapply py_int_chars; exact H]. Qed.

Lemma int_lit_nonempty s z : int_lit s z -> s <> "".
Proof. intros H ->. discriminate H. Qed.

Lemma int_lit_or_no d x s z : int_char d = false -> int_lit_or x s z -> contains d s = false.
Proof. intros Hd [[-> _]|[_ H]]; [reflexivity|eapply int_lit_no; eassumption]. Qed.

Lemma opt_int_spec x s z : int_lit_or x s z <-> exists o, opt_int s = Ok o /\ or_default x o = z.
Proof.
  unfold int_lit_or, int_lit, opt_int. destruct (String.eqb_spec s "") as [->|Hn].
  - split.
    + intros [[_ ->]|[H _]]; [|congruence]. exists None. auto.
    + intros (o & H & <-). injection H as <-. left. auto.
  - split.
    + intros [[H _]|[_ H]]; [congruence|]. rewrite H. exists (Some z). auto.
    + intros (o & H & <-). right. split; [exact Hn|].
      destruct (py_int s); cbn in H; [|discriminate]. injection H as <-. reflexivity.
Qed.

Lemma opt_int_lit s z : int_lit s z <-> opt_int s = Ok (Some z).
Proof.
  unfold int_lit, opt_int. destruct (String.eqb_spec s "") as [->|Hn].
  - split; discriminate.
  - destruct (py_int s); cbn; split; congruence.
Qed.

(** ** slice syntax *)

Lemma parse_slice_sound v root start stop step :
  contains ":" v = true ->
  parse_slice_syntax v = Ok (root, start, stop, step) ->
  slice_form v root start stop step.
Proof.
  intros Hc H. unfold parse_slice_syntax in H.
  apply bind_ok in H as ([root' suffix] & Hsplit & H).
  apply bind_ok in H as ([[start' ostop] step'] & Hargs & H).
  destruct ostop as [stop'|]; [|discriminate].
  destruct (contains "." root' || contains ":" root') eqn:Hr; [discriminate|].
  injection H as -> -> -> ->. apply orb_false_iff in Hr.
  assert (Hpl : plain_root root) by exact Hr.
  assert (Hv : exists sep, v = root ++ String sep suffix /\
            ((sep = ":"%char) \/ (sep = "."%char /\ (1 < List.length (split ":" suffix))%nat))).
  { destruct (contains "." v) eqn:Hdot.
    - destruct (split_once "." v) as [[r s]|] eqn:E; [|discriminate].
      destruct (Z.of_nat _ <=? 1)%Z eqn:E2; [discriminate|]. injection Hsplit as -> ->.
      apply split_once_spec in E as [E _]. exists "."%char. split; [exact E|right; split; [reflexivity|lia]].
    - destruct (split_once ":" v) as [[r s]|] eqn:E; [|discriminate].
      injection Hsplit as -> ->. apply split_once_spec in E as [E _].
      exists ":"%char. auto. }
  destruct Hv as (sep & -> & Hsep).
  pose proof (join_split ":" suffix) as Hj.
  destruct (split ":" suffix) as [|a [|b [|c [|d l]]]] eqn:Es; try discriminate.
  - cbn in Hj. subst suffix. apply bind_ok in Hargs as (z & Hz & Hargs).
    injection Hargs as <- <- <-.
    destruct Hsep as [->|[-> Hl]]; [|cbn in Hl; lia]. constructor; assumption.
  - cbn in Hj. subst suffix. apply bind_ok in Hargs as (o & Ho & Hargs).
    apply bind_ok in Hargs as (o2 & Ho2 & Hargs). injection Hargs as <- -> <-.
    apply SF_start_stop; [assumption|intuition auto| |].
    + apply opt_int_spec. eauto.
    + now apply opt_int_lit.
  - cbn in Hj. subst suffix. apply bind_ok in Hargs as (o & Ho & Hargs).
    apply bind_ok in Hargs as (o2 & Ho2 & Hargs). apply bind_ok in Hargs as (o3 & Ho3 & Hargs).
    injection Hargs as <- -> <-.
    apply SF_start_stop_step; [assumption|intuition auto| | |].
    + apply opt_int_spec. eauto.
    + now apply opt_int_lit.
    + apply opt_int_spec. eauto.
Qed.

Lemma sep_case sep : sep = "."%char \/ sep = ":"%char -> True. Proof. auto. Qed.

Lemma parse_slice_pre root sep suffix :
  plain_root root -> sep = "."%char \/ sep = ":"%char ->
  contains "." suffix = false ->
  (sep = "."%char -> (1 < List.length (split ":" suffix))%nat) ->
  (if contains "." (root ++ String sep suffix)
   then match split_once "." (root ++ String sep suffix) with
        | Some (r, s) => if (Z.of_nat (List.length (split ":" s)) <=? 1)%Z
                         then Err ValueError else Ok (r, s)
        | None => Err ValueError
        end
   else match split_once ":" (root ++ String sep suffix) with
        | Some (r, s) => Ok (r, s)
        | None => Err ValueError
        end) = Ok (root, suffix).
Proof.
  intros [Hr1 Hr2] [-> | ->] Hs Hl; rewrite contains_app, Hr1; cbn [contains orb].
  - cbn. rewrite split_once_app by assumption.
    specialize (Hl eq_refl). destruct (Z.of_nat _ <=? 1)%Z eqn:E; [lia|reflexivity].
  - cbn. rewrite Hs. now rewrite split_once_app by assumption.
Qed.

Lemma parse_slice_complete v root start stop step :
  slice_form v root start stop step ->
  contains ":" v = true /\ parse_slice_syntax v = Ok (root, start, stop, step).
Proof.
  assert (Hpc : forall root, plain_root root -> contains "." root || contains ":" root = false)
    by (intros r [-> ->]; reflexivity).
  intros H. destruct H as [root b stop Hr Hb | sep root a b start stop Hr Hsep Ha Hb
                          | sep root a b c start stop step Hr Hsep Ha Hb Hc].
  - split; [rewrite contains_app; cbn; apply orb_true_r|].
    assert (Hbd : contains "." b = false) by (eapply int_lit_no; [reflexivity|exact Hb]).
    assert (Hbc : contains ":" b = false) by (eapply int_lit_no; [reflexivity|exact Hb]).
    unfold parse_slice_syntax. rewrite parse_slice_pre; auto; [|discriminate].
    cbn [bind]. rewrite (split_no_sep _ _ Hbc). unfold int_lit in Hb. rewrite Hb. cbn [bind].
    rewrite Hpc by assumption. reflexivity.
  - assert (Had : contains "." a = false) by (eapply int_lit_or_no; [reflexivity|exact Ha]).
    assert (Hac : contains ":" a = false) by (eapply int_lit_or_no; [reflexivity|exact Ha]).
    assert (Hbd : contains "." b = false) by (eapply int_lit_no; [reflexivity|exact Hb]).
    assert (Hbc : contains ":" b = false) by (eapply int_lit_no; [reflexivity|exact Hb]).
    assert (Hsp : split ":" (a ++ String ":" b) = [a; b])
      by (rewrite split_app by assumption; now rewrite (split_no_sep _ _ Hbc)).
    split; [rewrite contains_app; cbn; rewrite contains_app; cbn; rewrite !orb_true_r; reflexivity|].
    unfold parse_slice_syntax. rewrite parse_slice_pre; auto.
    + cbn [bind]. rewrite Hsp. apply opt_int_spec in Ha as (o & Ho & Hoz). rewrite Ho. cbn [bind].
      apply opt_int_lit in Hb. rewrite Hb. cbn [bind]. rewrite Hpc by assumption. now rewrite Hoz.
    + rewrite contains_app, Had. cbn. exact Hbd.
    + intros _. rewrite Hsp. cbn. lia.
  - assert (Had : contains "." a = false) by (eapply int_lit_or_no; [reflexivity|exact Ha]).
    assert (Hac : contains ":" a = false) by (eapply int_lit_or_no; [reflexivity|exact Ha]).
    assert (Hbd : contains "." b = false) by (eapply int_lit_no; [reflexivity|exact Hb]).
    assert (Hbc : contains ":" b = false) by (eapply int_lit_no; [reflexivity|exact Hb]).
    assert (Hcd : contains "." c = false) by (eapply int_lit_or_no; [reflexivity|exact Hc]).
    assert (Hcc : contains ":" c = false) by (eapply int_lit_or_no; [reflexivity|exact Hc]).
    assert (Hsp : split ":" (a ++ String ":" (b ++ String ":" c)) = [a; b; c])
      by (rewrite split_app by assumption; rewrite split_app by assumption;
          now rewrite (split_no_sep _ _ Hcc)).
    split; [rewrite contains_app; cbn; rewrite contains_app; cbn; rewrite !orb_true_r; reflexivity|].
    unfold parse_slice_syntax. rewrite parse_slice_pre; auto.
    + cbn [bind]. rewrite Hsp. apply opt_int_spec in Ha as (o & Ho & Hoz). rewrite Ho. cbn [bind].
      apply opt_int_lit in Hb. rewrite Hb. cbn [bind].
      apply opt_int_spec in Hc as (o2 & Ho2 & Hoz2). rewrite Ho2. cbn [bind].
      rewrite Hpc by assumption. now rewrite Hoz, Hoz2.
    + rewrite contains_app, Had. cbn. rewrite contains_app, Hbd. cbn. exact Hcd.
    + intros _. rewrite Hsp. cbn. lia.
Qed.

(* every slice form is read as one set of parameters *)
Lemma slice_form_functional v r a b s r' a' b' s' :
  slice_form v r a b s -> slice_form v r' a' b' s' -> (r, a, b, s) = (r', a', b', s').
Proof.
  intros H1 H2. apply parse_slice_complete in H1 as [_ H1]. apply parse_slice_complete in H2 as [_ H2].
  congruence.
Qed.

Lemma slice_form_root v r a b s : slice_form v r a b s -> plain_root r.
Proof. now destruct 1. Qed.

(** ** ranges *)

Lemma py_range_lists a b s l : py_range a b s = Ok l -> s <> 0%Z /\ lists_progression a b s l.
Proof.
  unfold py_range. destruct (s =? 0)%Z eqn:E; [discriminate|]. intros H; injection H as <-.
  split; [lia|]. split.
  - intros i. rewrite in_map_iff. unfold in_progression. split.
    + intros (k & <- & Hk). apply zseq_In in Hk. exists k.
      rewrite Z2Nat.id in Hk by (apply range_len_nonneg; lia).
      unfold range_len in Hk.
      destruct (0 <? s)%Z eqn:E1.
      * destruct (a <? b)%Z eqn:E2; [|lia].
        assert (Hks : (k * s <= (b - a - 1) / s * s)%Z) by nia. 
        assert ((b - a - 1) / s * s <= b - a - 1)%Z by (rewrite Z.mul_comm; apply Z.mul_div_le; lia).
        repeat split; lia.
      * destruct (b <? a)%Z eqn:E2; [|lia].
        assert (Hks : (k * (- s) <= (a - b - 1) / (- s) * (- s))%Z) by nia.
        assert ((a - b - 1) / (- s) * (- s) <= a - b - 1)%Z by (rewrite Z.mul_comm; apply Z.mul_div_le; lia).
        repeat split; lia.
    + intros (k & Hk0 & -> & Hp & Hn). exists k. split; [reflexivity|]. apply zseq_In.
      rewrite Z2Nat.id by (apply range_len_nonneg; lia). unfold range_len.
      destruct (0 <? s)%Z eqn:E1.
      * specialize (Hp ltac:(lia)). destruct (a <? b)%Z eqn:E2; [|nia].
        assert (k <= (b - a - 1) / s)%Z by (apply Z.div_le_lower_bound; nia). lia.
      * specialize (Hn ltac:(lia)). destruct (b <? a)%Z eqn:E2; [|nia].
        assert (k <= (a - b - 1) / (- s))%Z by (apply Z.div_le_lower_bound; nia). lia.
  - generalize (Z.to_nat (range_len a b s)) as n. intros n. unfold zseq. rewrite map_map.
    generalize 0%nat as k0. induction n as [|n IH]; intros k0; cbn; constructor; auto.
    apply Forall_forall. intros x Hx. apply in_map_iff in Hx as (k & <- & Hk). apply in_seq in Hk.
    assert (s <> 0)%Z by lia. split; intros; nia.
Qed.

Lemma progression_unique_gen (R : Z -> Z -> Prop) (Hirr : forall x, ~ R x x)
      (Hasym : forall x y, R x y -> ~ R y x) l1 : forall l2,
  StronglySorted R l1 -> StronglySorted R l2 ->
  (forall i, In i l1 <-> In i l2) -> l1 = l2.
Proof.
  induction l1 as [|x l1 IH]; intros l2 H1 H2 He.
  - destruct l2 as [|y l2]; [reflexivity|]. exfalso. apply (He y). now left.
  - destruct l2 as [|y l2]; [exfalso; apply (He x); now left|].
    inversion H1 as [|? ? H1s H1f]; inversion H2 as [|? ? H2s H2f]; subst.
    rewrite Forall_forall in H1f, H2f.
    assert (x = y).
    { destruct (proj1 (He x) (or_introl eq_refl)) as [E|E]; [auto|].
      destruct (proj2 (He y) (or_introl eq_refl)) as [E2|E2]; [auto|].
      exfalso. exact (Hasym _ _ (H1f _ E2) (H2f _ E)). }
    subst y. f_equal. apply IH; auto. intros i. split; intros Hi.
    + destruct (proj1 (He i) (or_intror Hi)) as [E|E]; [|exact E].
      subst. exfalso. exact (Hirr _ (H1f _ Hi)).
    + destruct (proj2 (He i) (or_intror Hi)) as [E|E]; [|exact E].
      subst. exfalso. exact (Hirr _ (H2f _ Hi)).
Qed.

Lemma progression_unique a b s l1 l2 : s <> 0%Z ->
  lists_progression a b s l1 -> lists_progression a b s l2 -> l1 = l2.
Proof.
  intros Hs [H1 S1] [H2 S2].
  apply (progression_unique_gen _ ) with (3 := S1) (4 := S2).
  - intros x Hx. lia.
  - intros x y Hx Hy. lia.
  - intros i. now rewrite H1, H2.
Qed.

Lemma py_range_complete a b s l : s <> 0%Z -> lists_progression a b s l -> py_range a b s = Ok l.
Proof.
  intros Hs Hl. destruct (py_range a b s) as [l'|e] eqn:E.
  - f_equal. apply py_range_lists in E as [_ E]. eapply progression_unique; eassumption.
  - unfold py_range in E. destruct (s =? 0)%Z eqn:E2; [lia|discriminate].
Qed.

(** ** expand and normalize *)

Lemma expand_denotes v l : expand v = Ok l <-> denotes v l.
Proof.
  unfold expand. split.
  - intros H. destruct (alias_lut v) as [l'|] eqn:Ea.
    + injection H as <-. apply den_alias. now apply alias_lut_Some.
    + destruct (contains ":" v) eqn:Ec.
      * apply bind_ok in H as ([[[root a] b] s] & Hp & H).
        apply bind_ok in H as (idxs & Hi & H). injection H as <-.
        apply py_range_lists in Hi as [Hs Hi].
        eapply den_slice; [eapply parse_slice_sound; eassumption|assumption|assumption].
      * injection H as <-. apply den_atom. split; [now apply alias_lut_None|assumption].
  - intros H. destruct H as [c l H|c [Hc1 Hc2]|c root a b s idxs Hf Hs Hi].
    + apply alias_lut_Some in H. now rewrite H.
    + apply alias_lut_None in Hc1. now rewrite Hc1, Hc2.
    + apply parse_slice_complete in Hf as [Hc Hp].
      assert (Ha : alias_lut c = None) by (apply alias_lut_None; now apply not_alias_colon).
      rewrite Ha, Hc, Hp. cbn [bind]. rewrite (py_range_complete _ _ _ _ Hs Hi). reflexivity.
Qed.

Lemma denotes_atomic v l : denotes v l -> Forall atomic l.
Proof.
  intros H. destruct H as [c l H|c H|c root a b s idxs Hf Hs Hi].
  - eapply alias_members_atomic; eassumption.
  - now constructor.
  - apply Forall_forall. intros x Hx. apply in_map_iff in Hx as (i & <- & _).
    split; [apply not_alias_dot|]. apply slice_form_root in Hf as [_ Hf].
    rewrite contains_app, Hf. cbn. apply Z_str_no; [reflexivity|discriminate].
Qed.

Lemma expand_atomic v : atomic v -> expand v = Ok [v].
Proof. intros H. apply expand_denotes. now apply den_atom. Qed.

Lemma mapR_expand_atomic l : Forall atomic l -> mapR expand l = Ok (map (fun c => [c]) l).
Proof.
  induction 1 as [|c l Hc _ IH]; cbn; [reflexivity|]. now rewrite expand_atomic, IH.
Qed.

Lemma concat_singletons {A} (l : list A) : List.concat (map (fun c => [c]) l) = l.
Proof. induction l as [|c l IH]; cbn; [reflexivity|]. now rewrite IH. Qed.

Lemma normalize_atomic_id l b : Forall atomic l -> normalize (mkF l b) = Ok (mkF l true).
Proof.
  intros H. unfold normalize. destruct b; cbn; [reflexivity|].
  rewrite mapR_expand_atomic by assumption. cbn. now rewrite concat_singletons.
Qed.

Lemma Forall_concat {A} (P : A -> Prop) ls : Forall (Forall P) ls -> Forall P (List.concat ls).
Proof. induction 1; cbn; [constructor|]. apply Forall_app. auto. Qed.

Lemma normalize_flag f n : normalize f = Ok n -> isnorm n = true.
Proof.
  unfold normalize. destruct (isnorm f) eqn:E; [congruence|].
  intros H. apply bind_ok in H as (l & _ & H). injection H as <-. reflexivity.
Qed.

Lemma normalize_atomic f n : good f -> normalize f = Ok n -> Forall atomic (codes n).
Proof.
  unfold normalize. intros Hg H. destruct (isnorm f) eqn:E.
  - injection H as <-. auto.
  - apply bind_ok in H as (l & Hl & H). injection H as <-. cbn.
    apply mapR_Forall2 in Hl. apply Forall_concat. clear Hg E.
    induction Hl as [|c l' cs ls Hc _ IH]; constructor; auto.
    eapply denotes_atomic, expand_denotes; eassumption.
Qed.

Lemma normalize_good f n : good f -> normalize f = Ok n -> good n.
Proof. intros Hg H _. eapply normalize_atomic; eassumption. Qed.

Lemma normalize_idem f n b :
  good f -> normalize f = Ok n -> normalize (mkF (codes n) b) = Ok n.
Proof.
  intros Hg H. rewrite normalize_atomic_id by (eapply normalize_atomic; eassumption).
  f_equal. pose proof (normalize_flag _ _ H) as Hf. destruct n; cbn in *. now subst.
Qed.

Lemma Forall2_denotes_atoms l : Forall atomic l -> Forall2 denotes l (map (fun c => [c]) l).
Proof. induction 1; cbn; constructor; auto. now apply den_atom. Qed.

Lemma normalize_denotes f names :
  good f -> (rmap codes (normalize f) = Ok names <-> denotes_all (codes f) names).
Proof.
  intros Hg.
  assert (Hraw : forall l, rmap codes (normalize (mkF l false)) = Ok names <-> denotes_all l names).
  { intros l. unfold normalize, denotes_all. cbn [isnorm codes]. split.
    - intros H. destruct (mapR expand l) as [ls|e] eqn:E; [|discriminate].
      cbn in H. injection H as <-. exists ls. split; [|reflexivity].
      apply mapR_Forall2 in E. eapply Forall2_imp; [|exact E]. intros; now apply expand_denotes.
    - intros (ls & Hl & ->). assert (E : mapR expand l = Ok ls).
      { apply mapR_Forall2. eapply Forall2_imp; [|exact Hl]. intros; now apply expand_denotes. }
      rewrite E. reflexivity. }
  destruct f as [l []]; [|apply Hraw]. specialize (Hg eq_refl). cbn in Hg |- *.
  rewrite <- Hraw. rewrite normalize_atomic_id by assumption. cbn. tauto.
Qed.

(* flags are irrelevant on good objects *)
Lemma normalize_flag_irrelevant l b1 b2 :
  good (mkF l b1) -> good (mkF l b2) -> normalize (mkF l b1) = normalize (mkF l b2).
Proof.
  intros H1 H2. destruct b1, b2; try reflexivity.
  - specialize (H1 eq_refl). rewrite (normalize_atomic_id l false) by assumption. reflexivity.
  - specialize (H2 eq_refl). rewrite (normalize_atomic_id l false) by assumption. reflexivity.
Qed.

(** ** sizes and numel *)

Lemma code_size_expand v :
  code_size v = rmap (fun l => Z.of_nat (List.length l)) (expand v).
Proof.
  unfold code_size, expand. destruct (alias_lut v); [reflexivity|].
  destruct (contains ":" v); [|reflexivity].
  destruct (parse_slice_syntax v) as [[[[root a] b] s]|e]; [|reflexivity]. cbn [bind].
  unfold py_range. destruct (s =? 0)%Z eqn:E; [reflexivity|]. cbn [bind rmap].
  rewrite !map_length, zseq_length. rewrite Z2Nat.id; [reflexivity|]. apply range_len_nonneg. lia.
Qed.

Lemma mapR_rmap {A B C} (f : A -> result B) (g : B -> C) l :
  mapR (fun a => rmap g (f a)) l = rmap (map g) (mapR f l).
Proof.
  induction l as [|a l IH]; cbn; [reflexivity|]. destruct (f a); cbn; [|reflexivity].
  rewrite IH. destruct (mapR f l); reflexivity.
Qed.

Lemma zsum_length ls :
  zsum (map (fun l : list string => Z.of_nat (List.length l)) ls) = Z.of_nat (List.length (List.concat ls)).
Proof. induction ls as [|l ls IH]; cbn [map zsum fold_right List.concat]; [reflexivity|].
  rewrite app_length. unfold zsum in IH. rewrite IH. lia. Qed.

Lemma sizes_spec f : good f ->
  sizes f = rmap (map (fun l => Z.of_nat (List.length l))) (mapR expand (codes f)).
Proof.
  intros Hg. unfold sizes. destruct (isnorm f) eqn:E.
  - rewrite mapR_expand_atomic by auto. cbn. f_equal. rewrite map_map. reflexivity.
  - rewrite <- mapR_rmap. apply mapR_ext. intros; apply code_size_expand.
Qed.

Lemma numel_normalize f : good f ->
  numel f = rmap (fun n => Z.of_nat (List.length (codes n))) (normalize f).
Proof.
  intros Hg. unfold numel, normalize. destruct (isnorm f) eqn:E; [reflexivity|].
  rewrite sizes_spec by assumption. destruct (mapR expand (codes f)) as [ls|e]; [|reflexivity].
  cbn [rmap bind codes]. now rewrite zsum_length.
Qed.

Lemma numel_sum_sizes f : good f -> numel f = rmap zsum (sizes f).
Proof.
  intros Hg. rewrite numel_normalize, sizes_spec by assumption. unfold normalize.
  destruct (isnorm f) eqn:E.
  - rewrite mapR_expand_atomic by auto. cbn. f_equal. rewrite zsum_length. now rewrite concat_singletons.
  - destruct (mapR expand (codes f)) as [ls|e]; [|reflexivity]. cbn. now rewrite zsum_length.
Qed.

(** ** concise *)

(* the names covered by a run *)
Definition run_names (acc : run) : list string :=
  match acc with
  | Some (r, a, b) => map (fun k => indexed r (a + k)) (zseq (Z.to_nat (b - a)))
  | None => []
  end.

Definition run_ok (acc : run) : Prop :=
  match acc with Some (r, a, b) => plain_root r /\ (a < b)%Z | None => True end.

Lemma indexed_contains_dot r i : contains "." (indexed r i) = true.
Proof. unfold indexed. rewrite contains_app. cbn. apply orb_true_r. Qed.

Lemma indexed_atomic r i : contains ":" r = false -> atomic (indexed r i).
Proof.
  intros H. split; [apply not_alias_dot|]. unfold indexed. rewrite contains_app, H. cbn.
  apply Z_str_no; [reflexivity|discriminate].
Qed.

Lemma format_ready_expand r a b : plain_root r -> (a < b)%Z ->
  expand (format_ready r a b) = Ok (run_names (Some (r, a, b))).
Proof.
  intros Hr Hab. apply expand_denotes. unfold format_ready.
  assert (Hl : forall z, int_lit (Z_str z) z) by (intro; apply py_int_Z_str).
  destruct (a + 1 =? b)%Z eqn:E1.
  - cbn [run_names]. replace (b - a)%Z with 1%Z by lia.
    change (zseq (Z.to_nat 1)) with [0%Z]. cbn [map]. rewrite Z.add_0_r.
    apply den_atom, indexed_atomic, Hr.
  - assert (Hp : lists_progression a b 1 (map (fun k => a + k)%Z (zseq (Z.to_nat (b - a)))))
      by (apply (py_range_lists a b 1), py_range_1).
    assert (Hn : run_names (Some (r, a, b)) =
                 map (fun i => r ++ String "." (Z_str i)) (map (fun k => a + k)%Z (zseq (Z.to_nat (b - a)))))
      by (cbn; rewrite map_map; reflexivity).
    rewrite Hn. destruct (a =? 0)%Z eqn:E2.
    + eapply den_slice; [apply SF_stop; [exact Hr|apply Hl]|discriminate|].
      replace a with 0%Z in Hp |- * by lia. exact Hp.
    + eapply den_slice with (start := a) (stop := b) (step := 1%Z); [|discriminate|exact Hp].
      unfold indexed. rewrite <- app_assoc_s. cbn.
      apply SF_start_stop; [exact Hr|now left| |apply Hl].
      right. split; [apply Z_str_nonempty|apply Hl].
Qed.

Lemma run_names_snoc r a b : (a < b)%Z ->
  run_names (Some (r, a, b + 1))%Z = (run_names (Some (r, a, b)) ++ [indexed r b])%list.
Proof.
  intros H. cbn [run_names]. replace (Z.to_nat (b + 1 - a)) with (Z.to_nat (b - a) + 1)%nat by lia.
  rewrite (zseq_map_add _ _ (fun z => z)), map_app. f_equal.
  change (zseq 1) with [0%Z]. cbn [map]. do 2 f_equal. lia.
Qed.

Lemma run_names_1 r a : run_names (Some (r, a, a + 1))%Z = [indexed r a].
Proof. cbn [run_names]. replace (a + 1 - a)%Z with 1%Z by lia.
  change (zseq (Z.to_nat 1)) with [0%Z]. cbn [map]. now rewrite Z.add_0_r. Qed.

Definition names_of (out : list string) : result (list string) := rmap (@List.concat _) (mapR expand out).

Lemma names_of_app a b x y :
  names_of a = Ok x -> names_of b = Ok y -> names_of (a ++ b) = Ok (x ++ y)%list.
Proof.
  unfold names_of. intros Ha Hb. rewrite mapR_app.
  destruct (mapR expand a); [|discriminate]. destruct (mapR expand b); [|discriminate].
  cbn in *. rewrite concat_app. congruence.
Qed.

Lemma names_of_1 c l : expand c = Ok l -> names_of [c] = Ok l.
Proof. unfold names_of. cbn. intros ->. cbn. now rewrite app_nil_r. Qed.

Lemma canonical_split c :
  canonical c -> contains "." c = true ->
  exists root i, split "." c = [root; Z_str i] /\ c = indexed root i /\ contains "." root = false.
Proof.
  intros [H|(root & i & Hr & ->)] Hd; [congruence|]. exists root, i. split; [|auto].
  rewrite split_app by assumption. rewrite split_no_sep; [reflexivity|].
  apply Z_str_no; [reflexivity|discriminate].
Qed.

Lemma concise_step_ok acc out part x :
  run_ok acc -> names_of out = Ok x -> atomic part -> canonical part ->
  exists acc' out' x', concise_step (acc, out) part = Ok (acc', out') /\ run_ok acc' /\
    names_of out' = Ok x' /\
    (x' ++ run_names acc' = x ++ run_names acc ++ [part])%list.
Proof.
  intros Hacc Hout Hat Hcan. unfold concise_step. destruct (contains "." part) eqn:Hd.
  - destruct (canonical_split _ Hcan Hd) as (root & i & Hs & Hp & Hr).
    rewrite Hs, py_int_Z_str. cbn [bind].
    assert (Hrp : plain_root root).
    { split; [exact Hr|]. destruct Hat as [_ Hat]. subst part. unfold indexed in Hat.
      rewrite contains_app in Hat. now apply orb_false_iff in Hat as [Hat _]. }
    assert (Hnew : run_ok (Some (root, i, i + 1)%Z)) by (split; [exact Hrp|lia]).
    destruct acc as [[[r a] b]|].
    + destruct Hacc as [Hrr Hab].
      destruct (String.eqb_spec r root) as [->|Hne]; cbn [andb];
        [destruct (i =? b)%Z eqn:Ei|].
      * replace i with b in * by lia. exists (Some (root, a, b + 1)%Z), out, x.
        split; [reflexivity|]. split; [split; [exact Hrp|lia]|]. split; [exact Hout|].
        rewrite run_names_snoc by assumption. now rewrite Hp.
      * exists (Some (root, i, i + 1)%Z), (out ++ [format_ready root a b])%list,
          (x ++ run_names (Some (root, a, b)))%list.
        split; [reflexivity|]. split; [exact Hnew|]. split.
        -- apply names_of_app; [exact Hout|]. apply names_of_1. now apply format_ready_expand.
        -- rewrite run_names_1, <- app_assoc. now rewrite Hp.
      * exists (Some (root, i, i + 1)%Z), (out ++ [format_ready r a b])%list,
          (x ++ run_names (Some (r, a, b)))%list.
        split; [reflexivity|]. split; [exact Hnew|]. split.
        -- apply names_of_app; [exact Hout|]. apply names_of_1. now apply format_ready_expand.
        -- rewrite run_names_1, <- app_assoc. now rewrite Hp.
    + exists (Some (root, i, i + 1)%Z), out, x. repeat (split; [first [reflexivity|assumption]|]).
      rewrite run_names_1. cbn. now rewrite Hp.
  - destruct acc as [[[r a] b]|].
    + destruct Hacc as [Hrr Hab].
      exists None, (out ++ [format_ready r a b; part])%list,
        (x ++ (run_names (Some (r, a, b)) ++ [part]))%list.
      split; [reflexivity|]. split; [exact I|]. split; [|now rewrite app_nil_r].
      apply names_of_app; [exact Hout|].
      change [format_ready r a b; part] with ([format_ready r a b] ++ [part])%list.
      apply names_of_app; apply names_of_1; [now apply format_ready_expand|now apply expand_atomic].
    + exists None, (out ++ [part])%list, (x ++ [part])%list.
      split; [reflexivity|]. split; [exact I|]. split; [|now rewrite app_nil_r].
      apply names_of_app; [exact Hout|]. apply names_of_1. now apply expand_atomic.
Qed.

Lemma concise_loop_ok parts : forall acc out x,
  run_ok acc -> names_of out = Ok x -> Forall atomic parts -> Forall canonical parts ->
  exists acc' out' x', concise_loop (acc, out) parts = Ok (acc', out') /\ run_ok acc' /\
    names_of out' = Ok x' /\
    (x' ++ run_names acc' = x ++ run_names acc ++ parts)%list.
Proof.
  induction parts as [|p ps IH]; intros acc out x Hacc Hout Hat Hcan.
  - exists acc, out, x. rewrite app_nil_r. auto.
  - inversion Hat as [|? ? Hp Hps]; inversion Hcan as [|? ? Hcp Hcps]; subst.
    destruct (concise_step_ok acc out p x Hacc Hout Hp Hcp) as (acc1 & out1 & x1 & Hs & Hok1 & Ho1 & He1).
    destruct (IH acc1 out1 x1 Hok1 Ho1 Hps Hcps) as (acc2 & out2 & x2 & Hl & Hok2 & Ho2 & He2).
    exists acc2, out2, x2. cbn [concise_loop]. rewrite Hs. cbn [bind]. rewrite Hl.
    repeat (split; [first [reflexivity|assumption]|]).
    rewrite He2. rewrite app_assoc, He1. now rewrite <- !app_assoc.
Qed.

Lemma concise_roundtrip f n :
  good f -> normalize f = Ok n -> Forall canonical (codes n) ->
  exists g, concise f = Ok g /\ normalize g = Ok n.
Proof.
  intros Hg Hn Hc. pose proof (normalize_atomic _ _ Hg Hn) as Hat.
  destruct (concise_loop_ok (codes n) None [] [] I eq_refl Hat Hc)
    as (acc & out & x & Hl & Hok & Ho & He).
  unfold concise. rewrite Hn. cbn [bind]. unfold run in *. rewrite Hl. cbn [bind].
  assert (Hfin : forall l, names_of l = Ok (codes n) -> normalize (mkF l false) = Ok n).
  { intros l H. unfold normalize, names_of in *. cbn [isnorm codes].
    destruct (mapR expand l); [|discriminate]. cbn in H |- *. injection H as H. f_equal.
    pose proof (normalize_flag _ _ Hn). destruct n; cbn in *. congruence. }
  cbn in He. destruct acc as [[[r a] b]|].
  - eexists. split; [reflexivity|]. apply Hfin. rewrite <- He.
    apply names_of_app; [exact Ho|]. destruct Hok. apply names_of_1. now apply format_ready_expand.
  - eexists. split; [reflexivity|]. apply Hfin. cbn in He. rewrite app_nil_r in He. now rewrite <- He.
Qed.

(* number of codes *)
Definition run_cost (acc : run) : nat := match acc with Some _ => 1 | None => 0 end.

Lemma concise_step_len acc out part acc' out' :
  concise_step (acc, out) part = Ok (acc', out') ->
  (List.length out' + run_cost acc' <= List.length out + run_cost acc + 1)%nat.
Proof.
  unfold concise_step. intros H.
  destruct (contains "." part).
  - destruct (split "." part) as [|root [|suf [|? ?]]]; try discriminate.
    destruct (py_int suf) as [i|]; [|discriminate]. cbn [bind] in H.
    destruct acc as [[[r a] b]|].
    + destruct (String.eqb r root && (i =? b)%Z); injection H as <- <-; cbn;
        rewrite ?app_length; cbn; lia.
    + injection H as <- <-. cbn. lia.
  - destruct acc as [[[r a] b]|]; injection H as <- <-; rewrite app_length; cbn; lia.
Qed.

Lemma concise_loop_len parts : forall acc out acc' out',
  concise_loop (acc, out) parts = Ok (acc', out') ->
  (List.length out' + run_cost acc' <= List.length out + run_cost acc + List.length parts)%nat.
Proof.
  induction parts as [|p ps IH]; cbn [concise_loop]; intros acc out acc' out' H.
  - injection H as <- <-. cbn. lia.
  - apply bind_ok in H as ([acc1 out1] & Hs & H). apply concise_step_len in Hs. apply IH in H. cbn. lia.
Qed.

Lemma concise_shorter f n g :
  normalize f = Ok n -> concise f = Ok g -> (List.length (codes g) <= List.length (codes n))%nat.
Proof.
  unfold concise. intros -> H. cbn [bind] in H. apply bind_ok in H as ([acc out] & Hl & H).
  apply concise_loop_len in Hl. cbn in Hl. destruct acc as [[[r a] b]|]; injection H as <-; cbn in *;
    rewrite ?app_length; cbn; lia.
Qed.

(* maximality: no two neighbouring codes of the result continue each other *)

Lemma indexed_inj r i r' i' : contains "." r = false -> contains "." r' = false ->
  indexed r i = indexed r' i' -> r = r' /\ i = i'.
Proof.
  unfold indexed. intros H H' E. apply (f_equal (split_once ".")) in E.
  rewrite !split_once_app in E by assumption. injection E as -> E. split; [reflexivity|].
  now apply Z_str_inj.
Qed.

Lemma denotes_functional c l l' : denotes c l -> denotes c l' -> l = l'.
Proof. intros H H'. apply expand_denotes in H, H'. congruence. Qed.

Lemma denotes_run r a b : plain_root r -> (a < b)%Z ->
  denotes (format_ready r a b) (run_names (Some (r, a, b))).
Proof. intros. apply expand_denotes. now apply format_ready_expand. Qed.

Lemma run_names_last r a b : (a < b)%Z ->
  exists l, run_names (Some (r, a, b)) = (l ++ [indexed r (b - 1)])%list.
Proof.
  intros H. remember (b - 1)%Z as b' eqn:Eb. replace b with (b' + 1)%Z by lia.
  destruct (Z.eq_dec a b') as [->|Hn].
  - exists []. cbn [app]. apply run_names_1.
  - eexists. apply run_names_snoc. lia.
Qed.

Lemma run_names_first r a b : (a < b)%Z ->
  exists l, run_names (Some (r, a, b)) = indexed r a :: l.
Proof.
  intros H. cbn [run_names]. replace (Z.to_nat (b - a)) with (1 + Z.to_nat (b - a - 1))%nat by lia.
  rewrite (zseq_map_add _ _ (fun z => z)). change (zseq 1) with [0%Z]. cbn [map app].
  rewrite Z.add_0_r. eauto.
Qed.

Lemma not_continues_to_plain c part : contains "." part = false -> ~ contains ":" part = true ->
  alias_lut part = None -> ~ continues c part.
Proof.
  intros Hd Hc Ha (l1 & l2 & r & i & _ & _ & H2).
  assert (Hp : denotes part [part]).
  { apply den_atom. split; [now apply alias_lut_None|]. now apply not_true_is_false. }
  pose proof (denotes_functional _ _ _ Hp H2) as E. injection E as E _.
  rewrite E in Hd. fold (indexed r (i + 1)) in Hd. rewrite indexed_contains_dot in Hd. discriminate.
Qed.

Lemma not_continues_from_plain part c : contains "." part = false -> atomic part -> ~ continues part c.
Proof.
  intros Hd Hat (l1 & l2 & r & i & _ & H1 & _).
  pose proof (denotes_functional _ _ _ (den_atom _ Hat) H1) as E.
  destruct l1 as [|x l1]; cbn in E.
  - injection E as E. rewrite E in Hd. fold (indexed r i) in Hd.
    rewrite indexed_contains_dot in Hd. discriminate.
  - injection E as _ E. destruct l1; discriminate.
Qed.

Lemma not_continues_runs r a b r' a' b' :
  plain_root r -> plain_root r' -> (a < b)%Z -> (a' < b')%Z -> ~ (r = r' /\ a' = b) ->
  ~ continues (format_ready r a b) (format_ready r' a' b').
Proof.
  intros Hr Hr' Hab Hab' Hn (l1 & l2 & q & i & Hq & H1 & H2). apply Hn.
  pose proof (denotes_functional _ _ _ (denotes_run _ _ _ Hr Hab) H1) as E1.
  pose proof (denotes_functional _ _ _ (denotes_run _ _ _ Hr' Hab') H2) as E2.
  destruct (run_names_last r a b Hab) as [l El]. destruct (run_names_first r' a' b' Hab') as [l' El'].
  rewrite El in E1. rewrite El' in E2. apply app_inj_tail in E1 as [_ E1].
  injection E2 as E2 _.
  apply (indexed_inj r (b - 1) q i) in E1 as [-> E1]; [|apply Hr|apply Hq].
  apply (indexed_inj r' a' q (i + 1)) in E2 as [-> E2]; [|apply Hr'|apply Hq].
  split; [reflexivity|lia].
Qed.


Definition run_free (acc : run) (out : list string) : Prop :=
  match acc with
  | None => forall pre c, out = (pre ++ [c])%list -> contains "." c = false /\ atomic c
  | Some (r, a, _) => forall pre c b, out = (pre ++ [c])%list -> (a < b)%Z ->
                        ~ continues c (format_ready r a b)
  end.

Lemma snoc_cases {A} (l : list A) : l = [] \/ exists l' x, l = (l' ++ [x])%list.
Proof.
  destruct l as [|a l]; [auto|right]. destruct (exists_last (l := a :: l)) as (l' & x & E); [discriminate|].
  eauto.
Qed.

Lemma chain_free_snoc l c :
  chain_free l -> (forall pre x, l = (pre ++ [x])%list -> ~ continues x c) -> chain_free (l ++ [c]).
Proof.
  intros Hl Hc pre c1 c2 post E.
  destruct (snoc_cases post) as [->|(post' & y & ->)].
  - change (pre ++ [c1; c2])%list with (pre ++ [c1] ++ [c2])%list in E. rewrite app_assoc in E.
    apply app_inj_tail in E as [E ->]. now apply (Hc pre).
  - replace (pre ++ c1 :: c2 :: post' ++ [y])%list with ((pre ++ c1 :: c2 :: post') ++ [y])%list in E
      by (rewrite <- app_assoc; reflexivity).
    apply app_inj_tail in E as [E _]. eapply Hl; exact E.
Qed.

Lemma snoc_inj {A} (l l' : list A) x y : (l ++ [x] = l' ++ [y])%list -> l = l' /\ x = y.
Proof. apply app_inj_tail. Qed.

Lemma concise_step_max acc out part acc' out' :
  run_ok acc -> atomic part -> canonical part ->
  chain_free out -> run_free acc out ->
  concise_step (acc, out) part = Ok (acc', out') ->
  run_ok acc' /\ chain_free out' /\ run_free acc' out'.
Proof.
  intros Hacc Hat Hcan Hch Hfree. unfold concise_step.
  destruct (contains "." part) eqn:Hd.
  - destruct (canonical_split _ Hcan Hd) as (root & i & Hs & Hp & Hr).
    rewrite Hs, py_int_Z_str. cbn [bind].
    assert (Hrp : plain_root root).
    { split; [exact Hr|]. destruct Hat as [_ Hat]. subst part. unfold indexed in Hat.
      rewrite contains_app in Hat. now apply orb_false_iff in Hat as [Hat _]. }
    destruct acc as [[[r a] b]|].
    + destruct Hacc as [Hrr Hab].
      destruct (String.eqb_spec r root) as [->|Hne]; cbn [andb]; [destruct (i =? b)%Z eqn:Ei|];
        intros H; injection H as <- <-.
      * split; [split; [exact Hrp|lia]|]. split; [exact Hch|]. exact Hfree.
      * split; [split; [exact Hrp|lia]|]. split.
        -- apply chain_free_snoc; [exact Hch|]. intros pre x E. eapply Hfree; eassumption.
        -- cbn. intros pre c b' E Hb'. apply snoc_inj in E as [_ <-].
           apply not_continues_runs; auto; lia.
      * split; [split; [exact Hrp|lia]|]. split.
        -- apply chain_free_snoc; [exact Hch|]. intros pre x E. eapply Hfree; eassumption.
        -- cbn. intros pre c b' E Hb'. apply snoc_inj in E as [_ <-].
           apply not_continues_runs; auto. intros [E _]; auto.
    + intros H; injection H as <- <-. split; [split; [exact Hrp|lia]|]. split; [exact Hch|].
      cbn. intros pre c b' E Hb'. destruct (Hfree _ _ E) as [H1 H2].
      now apply not_continues_from_plain.
  - assert (Hto : forall c, ~ continues c part).
    { intros c. apply not_continues_to_plain; [exact Hd| |].
      - destruct Hat as [_ ->]. discriminate.
      - apply alias_lut_None, Hat. }
    destruct acc as [[[r a] b]|]; intros H; injection H as <- <-.
    + destruct Hacc as [Hrr Hab]. split; [exact I|]. split.
      * change [format_ready r a b; part] with ([format_ready r a b] ++ [part])%list.
        rewrite app_assoc. apply chain_free_snoc; [apply chain_free_snoc; [exact Hch|]|auto].
        intros pre x E. eapply Hfree; eassumption.
      * intros pre c E. change [format_ready r a b; part] with ([format_ready r a b] ++ [part])%list in E.
        rewrite app_assoc in E. apply snoc_inj in E as [_ <-]. auto.
    + split; [exact I|]. split.
      * apply chain_free_snoc; auto.
      * intros pre c E. apply snoc_inj in E as [_ <-]. auto.
Qed.

Lemma concise_loop_max parts : forall acc out acc' out',
  run_ok acc -> Forall atomic parts -> Forall canonical parts ->
  chain_free out -> run_free acc out ->
  concise_loop (acc, out) parts = Ok (acc', out') ->
  run_ok acc' /\ chain_free out' /\ run_free acc' out'.
Proof.
  induction parts as [|p ps IH]; cbn [concise_loop]; intros acc out acc' out' Ha Hat Hcan Hc Hf H.
  - injection H as <- <-. auto.
  - inversion Hat; inversion Hcan; subst. apply bind_ok in H as ([acc1 out1] & Hs & H).
    apply concise_step_max in Hs as (G1 & G2 & G3); auto. eapply IH; eassumption.
Qed.

Lemma concise_maximal f n g :
  good f -> normalize f = Ok n -> Forall canonical (codes n) -> concise f = Ok g ->
  chain_free (codes g).
Proof.
  intros Hg Hn Hc H. pose proof (normalize_atomic _ _ Hg Hn) as Hat.
  unfold concise in H. rewrite Hn in H. cbn [bind] in H.
  apply bind_ok in H as ([acc out] & Hl & H).
  apply concise_loop_max in Hl as (H1 & H2 & H3); auto; [|exact I| |].
  - destruct acc as [[[r a] b]|]; injection H as <-; cbn; [|exact H2].
    apply chain_free_snoc; [exact H2|]. intros pre x E. eapply H3; [exact E|]. apply H1.
  - intros [|? ?] c1 c2 post E; discriminate.
  - intros [|? ?] c E; discriminate.
Qed.
