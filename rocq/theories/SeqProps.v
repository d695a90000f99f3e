(* Property theorems about fused specs as Python sequences and about code_list. *)
From Verif Require Import Py PyProofs ChanModel ChanSpec ChanProofs ChanSetProofs ChanStreamProofs ChanProps SeqModel.
From Coq Require Import ZifyBool.
Local Open Scope Z_scope.

(** C153: "len(spec) is the number of items list(spec) yields, and reversed(spec)
    yields them backwards" is false: 'rgb' has length 1 but three items. *)
Theorem C153_len_refuted :
  ~ (forall f names, good f -> denotes_all (codes f) names -> flen f = Z.of_nat (List.length names)) /\
  ~ (forall f names, good f -> denotes_all (codes f) names -> freversed f = Ok (rev names)).
Proof.
  assert (D : denotes_all ["rgb"%string] ["r"; "g"; "b"]%string).
  { exists [["r"; "g"; "b"]%string]. split; [|reflexivity]. constructor; [|constructor]. apply den_alias. cbn. tauto. }
  assert (G : good (mkF ["rgb"%string] false)) by (intros X; discriminate X).
  split; intros H; specialize (H _ _ G D); vm_compute in H; discriminate H.
Qed.
Print Assumptions C153_len_refuted.

Lemma get_name f names k : good f -> denotes_all (codes f) names ->
  getitem f (IInt (Z.of_nat k)) = match nth_error names k with Some c => Ok (GCode c) | None => Err IndexError end.
Proof.
  intros Hg Hd. unfold getitem. rewrite (normalize_names f names Hg Hd). cbn [bind codes]. unfold py_get.
  assert (E : (Z.of_nat k <? 0) = false) by lia. rewrite E. cbn iota. rewrite E, Nat2Z.id. now destruct (nth_error names k).
Qed.

(** Iteration yields the normalized names; len() counts the codes as written;
    reversed() yields the first len(spec) names backwards, or nothing if there are
    fewer names than codes. *)
Theorem C153_exact : forall f names, good f -> denotes_all (codes f) names ->
  (forall fuel, (List.length names < fuel)%nat -> flist f fuel = Some (Ok names)) /\
  flen f = Z.of_nat (List.length (codes f)) /\ (fbool f = true <-> codes f <> []) /\
  (flen f <= Z.of_nat (List.length names) -> freversed f = Ok (rev (firstn (List.length (codes f)) names))) /\
  (Z.of_nat (List.length names) < flen f -> freversed f = Ok []).
Proof.
  intros f names Hg Hd. split.
  { assert (G : forall fuel k, (k <= List.length names)%nat -> (List.length names - k < fuel)%nat ->
      iter_from f fuel (Z.of_nat k) = Some (Ok (skipn k names))).
    { induction fuel as [|fuel IH]; intros k Hk Hf; [lia|]. cbn [iter_from]. rewrite (get_name f names k Hg Hd).
      destruct (nth_error names k) as [c|] eqn:E.
      - assert (k < List.length names)%nat by (apply nth_error_Some; congruence).
        replace (Z.of_nat k + 1) with (Z.of_nat (S k)) by lia. rewrite IH by lia.
        f_equal. f_equal. clear -E. revert names E. induction k as [|k IHk]; intros [|a l] E; try discriminate; cbn in *; [congruence|]. now apply IHk.
      - apply nth_error_None in E. rewrite skipn_all2 by lia. reflexivity. }
    intros fuel Hf. unfold flist. exact (G fuel O ltac:(lia) ltac:(lia)). }
  split; [reflexivity|]. split; [unfold fbool, flen; destruct (codes f); cbn [List.length]; split; intros; try congruence; lia|].
  unfold freversed, flen. rewrite Nat2Z.id. split.
  - intros H. assert (L : (List.length (codes f) <= List.length names)%nat) by lia. clear H.
    induction (List.length (codes f)) as [|n IH]; [reflexivity|]. cbn [reversed_from]. rewrite (get_name f names n Hg Hd).
    destruct (nth_error names n) as [c|] eqn:E; [|apply nth_error_None in E; lia]. rewrite IH by lia. cbn [bind]. f_equal.
    assert (X : firstn (S n) names = (firstn n names ++ [c])%list).
    { clear -E. revert names E. induction n as [|n IHn]; intros [|a l] E; try discriminate; cbn in *; [congruence|]. f_equal. now apply IHn. }
    rewrite X, rev_app_distr. reflexivity.
  - intros H. destruct (List.length (codes f)) as [|n]; [lia|]. cbn [reversed_from]. rewrite (get_name f names n Hg Hd).
    destruct (nth_error names n) eqn:E; [|reflexivity]. assert (n < List.length names)%nat by (apply nth_error_Some; congruence). lia.
Qed.
Print Assumptions C153_exact.

(** So a spec of plain channel names is an ordinary sequence of them. *)
Theorem C153_len_partial : forall f, Forall atomic (codes f) ->
  flist f (S (List.length (codes f))) = Some (Ok (codes f)) /\
  flen f = Z.of_nat (List.length (codes f)) /\ freversed f = Ok (rev (codes f)).
Proof.
  intros f Ha.
  assert (Hd : denotes_all (codes f) (codes f)).
  { exists (map (fun c => [c]) (codes f)). split.
    - induction Ha as [|c l Hc Ha IH]; cbn; constructor; [now apply den_atom|exact IH].
    - clear. induction (codes f) as [|c l IH]; cbn; [reflexivity|]. now f_equal. }
  assert (Hg : good f) by (intros _; exact Ha).
  destruct (C153_exact f _ Hg Hd) as (H1 & H2 & _ & H3 & _). split; [apply H1; lia|]. split; [exact H2|].
  rewrite H3 by (rewrite H2; lia). now rewrite firstn_all.
Qed.
Print Assumptions C153_len_partial.

Example C153_case :
  flist (mkF ["rgb"; "z:2"]%string false) 9 = Some (Ok ["r"; "g"; "b"; "z.0"; "z.1"]%string) /\
  flen (mkF ["rgb"; "z:2"]%string false) = 2 /\ freversed (mkF ["rgb"; "z:2"]%string false) = Ok ["g"; "r"]%string /\
  freversed (mkF ["x"; "z.4:4"]%string false) = Ok [] /\
  freversed (mkF ["x"; "y"]%string false) = Ok ["y"; "x"]%string.
Proof. vm_compute. auto 6. Qed.

(** C154: "code_list() returns the expanded code list" is false of fused specs. *)
Theorem C154_code_list_refuted :
  ~ (forall f names, good f -> denotes_all (codes f) names -> fcode_list f = names).
Proof.
  intros H. specialize (H (mkF ["x"; "z:2"]%string false) ["x"; "z.0"; "z.1"]%string ltac:(intros X; discriminate X)).
  assert (D : denotes_all (codes (mkF ["x"; "z:2"]%string false)) ["x"; "z.0"; "z.1"]%string).
  { apply C01_normalize_is_denotation; [intros X; discriminate X|]. vm_compute. reflexivity. }
  specialize (H D). discriminate H.
Qed.
Print Assumptions C154_code_list_refuted.

(** Fused specs return their codes as written.  A ChannelSpec returns its stream as
    written exactly when it has one, written once or repeatedly, and raises
    otherwise. *)
Theorem C154_code_list_partial :
  (forall f, Forall atomic (codes f) -> denotes_all (codes f) (fcode_list f)) /\
  (forall s l, (exists f, ccode_list (mkC s None) = Ok f /\ codes f = l) <->
     read_streams s <> [] /\ forall l', In l' (read_streams s) -> l' = l).
Proof.
  split.
  - intros f Ha. exists (map (fun c => [c]) (codes f)). unfold fcode_list. split.
    + induction Ha as [|c l Hc Ha IH]; cbn; constructor; [now apply den_atom|exact IH].
    + clear. induction (codes f) as [|c l IH]; cbn; [reflexivity|]. now f_equal.
  - intros s l. unfold ccode_list. change (cparse (mkC s None)) with (parse_text s).
    pose proof (parse_text_streams s) as HS. pose proof (parse_text_NoDup s) as HN.
    assert (HK : forall k f, In (k, f) (parse_text s) -> f = mkF (split "|" k) false) by (intros k f H; apply parse_text_In in H as [_ H]; exact H).
    destruct (parse_text s) as [|[k f] [|[k' f'] rest]].
    + split; [intros (f & X & _); discriminate X|]. intros [H _]. destruct (read_streams s) as [|l0 r]; [contradiction|].
      destruct (proj2 (HS l0) (or_introl eq_refl)).
    + split.
      * intros (g & [= <-] & <-). split.
        { intros E. assert (X : In (codes f) (read_streams s)) by (apply HS; now left). rewrite E in X. destruct X. }
        { intros l' H. apply HS in H as [<-|[]]. reflexivity. }
      * intros [_ H]. exists f. split; [reflexivity|]. apply H. apply HS. now left.
    + split; [intros (g & X & _); discriminate X|]. intros [_ H]. exfalso.
      assert (E1 : codes f = l) by (apply H, HS; now left). assert (E2 : codes f' = l) by (apply H, HS; right; now left).
      rewrite (HK k f (or_introl eq_refl)) in E1. rewrite (HK k' f' (or_intror (or_introl eq_refl))) in E2. cbn in E1, E2.
      assert (k = k') by (rewrite <- (join_split "|" k), <- (join_split "|" k'); congruence).
      subst k'. inversion HN as [|? ? X]; subst. apply X. now left.
Qed.
Print Assumptions C154_code_list_partial.

Example C154_case :
  rmap codes (ccode_list (mkC "rgb|z:2,,rgb|z:2"%string None)) = Ok ["rgb"; "z:2"]%string /\
  ccode_list (mkC "rgb,r|g|b"%string None) = Err OtherError /\ ccode_list (mkC ","%string None) = Err OtherError.
Proof. vm_compute. auto. Qed.
