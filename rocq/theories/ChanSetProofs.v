(* Set algebra of fused specs, indexing, subsequence_index, ordered-set edits. *)
From Verif Require Import PyProofs ChanModel ChanSpec ChanProofs.
From Coq Require Import ZifyBool ZifyNat ZifyN Permutation.
Local Open Scope string_scope.

(** ** subseq *)

Lemma subseq_refl {A} (l : list A) : subseq l l.
Proof. induction l; constructor; auto. Qed.

Lemma subseq_nil {A} (l : list A) : subseq [] l.
Proof. induction l; constructor; auto. Qed.

Lemma subseq_filter {A} (p : A -> bool) l : subseq (filter p l) l.
Proof. induction l as [|x l IH]; cbn; [constructor|]. destruct (p x); constructor; auto. Qed.

Lemma subseq_trans {A} (a b c : list A) : subseq a b -> subseq b c -> subseq a c.
Proof.
  intros H H2. revert a H. induction H2 as [|x b c H2 IH|x b c H2 IH]; intros a H.
  - exact H.
  - inversion H; subst; constructor; auto.
  - constructor; auto.
Qed.

Lemma subseq_oset l : subseq (oset_of l) l.
Proof.
  induction l as [|x l IH]; cbn; [constructor|]. constructor.
  eapply subseq_trans; [apply subseq_filter|exact IH].
Qed.

Lemma normalize_names f names : good f -> denotes_all (codes f) names -> normalize f = Ok (mkF names true).
Proof.
  intros Hg H. apply normalize_denotes in H; [|exact Hg].
  destruct (normalize f) as [n|e] eqn:E; [|discriminate]. cbn in H. injection H as <-.
  pose proof (normalize_flag _ _ E). destruct n; cbn in *; congruence.
Qed.

Lemma normalize_names_inv f n : good f -> normalize f = Ok n -> denotes_all (codes f) (codes n).
Proof. intros Hg H. apply normalize_denotes; [exact Hg|]. now rewrite H. Qed.

Lemma good_atomic l : Forall atomic l -> good (mkF l true).
Proof. intros H _. exact H. Qed.

Lemma denotes_all_atomic l names : denotes_all l names -> Forall atomic names.
Proof.
  intros (ls & H & ->). apply Forall_concat. induction H; constructor; auto.
  eapply denotes_atomic; eassumption.
Qed.

Lemma Forall_incl {A} (P : A -> Prop) l l' : incl l l' -> Forall P l' -> Forall P l.
Proof. rewrite !Forall_forall. auto. Qed.

Section Algebra.
  Context (f g : fused) (A B : list string).
  Hypothesis (Hf : good f) (Hg : good g).
  Hypothesis (HA : denotes_all (codes f) A) (HB : denotes_all (codes g) B).

  Lemma difference_spec : exists d, difference f (OpSpec g) = Ok d /\ good d /\
    (forall c, In c (codes d) <-> In c A /\ ~ In c B) /\ NoDup (codes d) /\ subseq (codes d) A.
  Proof.
    eexists. unfold difference, operand_codes.
    rewrite (normalize_names f A), (normalize_names g B) by assumption. cbn [bind codes].
    split; [reflexivity|].
    assert (HI : forall c, In c (filter (fun c => negb (str_mem c (oset_of B))) (oset_of A))
                           <-> In c A /\ ~ In c B).
    { intros c. rewrite filter_In, oset_of_In, negb_true_iff, str_mem_notIn, oset_of_In. tauto. }
    split; [|split; [exact HI|split]].
    - apply good_atomic. eapply Forall_incl; [|eapply denotes_all_atomic; exact HA].
      intros c Hc. now apply HI in Hc.
    - apply NoDup_filter, oset_of_NoDup.
    - eapply subseq_trans; [apply subseq_filter|apply subseq_oset].
  Qed.

  Lemma intersection_spec : exists d, intersection f (OpSpec g) = Ok d /\ good d /\
    (forall c, In c (codes d) <-> In c A /\ In c B) /\ subseq (codes d) A /\
    (forall c, In c B -> count_occ string_dec (codes d) c = count_occ string_dec A c).
  Proof.
    eexists. unfold intersection, iterated.
    rewrite (normalize_names f A), (normalize_names g B) by assumption. cbn [bind codes].
    split; [reflexivity|].
    assert (HI : forall c, In c (filter (fun c => str_mem c B) A) <-> In c A /\ In c B).
    { intros c. rewrite filter_In, str_mem_In. tauto. }
    split; [|split; [exact HI|split]].
    - apply good_atomic. eapply Forall_incl; [|eapply denotes_all_atomic; exact HA].
      intros c Hc. now apply HI in Hc.
    - apply subseq_filter.
    - intros c Hc. clear -Hc. cbn [codes]. induction A as [|x l IH]; cbn; [reflexivity|].
      destruct (str_mem x B) eqn:E; cbn.
      + destruct (string_dec x c); rewrite IH; reflexivity.
      + destruct (string_dec x c) as [->|]; [|exact IH]. apply str_mem_notIn in E. tauto.
  Qed.

  Lemma oset_of_app_prefix a b : exists rest, oset_of (a ++ b) = (oset_of a ++ rest)%list /\ subseq rest b.
  Proof.
    induction a as [|x a IH]; cbn.
    - exists (oset_of b). split; [reflexivity|apply subseq_oset].
    - destruct IH as (rest & -> & Hr). rewrite filter_app. eexists. split; [reflexivity|].
      eapply subseq_trans; [apply subseq_filter|exact Hr].
  Qed.

  Lemma union_spec : exists d, union f (OpSpec g) = Ok d /\ good d /\
    (forall c, In c (codes d) <-> In c A \/ In c B) /\ NoDup (codes d) /\
    exists left rest, codes d = (left ++ rest)%list /\ (forall c, In c left <-> In c A) /\
                      subseq left A /\ subseq rest B.
  Proof.
    eexists. unfold union, operand_codes.
    rewrite (normalize_names f A), (normalize_names g B) by assumption. cbn [bind codes].
    split; [reflexivity|].
    assert (HI : forall c, In c (oset_of (oset_of A ++ B)) <-> In c A \/ In c B).
    { intros c. now rewrite oset_of_In, in_app_iff, oset_of_In. }
    split; [|split; [exact HI|split]].
    - apply good_atomic. apply Forall_forall. intros c Hc. apply HI in Hc.
      pose proof (denotes_all_atomic _ _ HA) as H1. pose proof (denotes_all_atomic _ _ HB) as H2.
      rewrite Forall_forall in H1, H2. destruct Hc; auto.
    - apply oset_of_NoDup.
    - destruct (oset_of_app_prefix (oset_of A) B) as (rest & E & Hr).
      rewrite (oset_of_id (oset_of A)) in E by apply oset_of_NoDup.
      exists (oset_of A), rest. split; [exact E|]. split; [intros c; apply oset_of_In|].
      split; [apply subseq_oset|exact Hr].
  Qed.

  Lemma issubset_gen a b : NoDup a ->
    (if Nat.ltb (List.length b) (List.length a) then false else forallb (fun x => str_mem x b) a) = true
    <-> incl a b.
  Proof.
    intros Hnd. destruct (Nat.ltb_spec (List.length b) (List.length a)) as [Hl|Hl].
    - split; [discriminate|]. intros Hi. pose proof (NoDup_incl_length Hnd Hi). lia.
    - rewrite forallb_forall. unfold incl. split; intros H x Hx; apply str_mem_In; auto.
  Qed.

  Lemma issubset_spec : exists r, issubset f (OpSpec g) = Ok r /\ (r = true <-> incl A B).
  Proof.
    eexists. unfold issubset, other_set.
    rewrite (normalize_names f A), (normalize_names g B) by assumption. cbn [bind codes].
    split; [reflexivity|]. rewrite issubset_gen by apply oset_of_NoDup.
    unfold incl. split; intros H c Hc; specialize (H c); rewrite !oset_of_In in *; auto.
  Qed.

  Lemma issuperset_spec : exists r, issuperset f (OpSpec g) = Ok r /\ (r = true <-> incl B A).
  Proof.
    eexists. unfold issuperset, other_set, iterated.
    rewrite (normalize_names f A), (normalize_names g B) by assumption. cbn [bind codes].
    split; [destruct (Nat.ltb (List.length (oset_of A)) (List.length (oset_of B))) eqn:E;
      [instantiate (1 := if Nat.ltb (List.length (oset_of A)) (List.length (oset_of B)) then false else forallb (fun x => str_mem x (oset_of A)) (oset_of B))|]; rewrite ?E; reflexivity|]. rewrite issubset_gen by apply oset_of_NoDup.
    unfold incl. split; intros H c Hc; specialize (H c); rewrite !oset_of_In in *; auto.
  Qed.
End Algebra.

(** ** indexing *)

Lemma py_get_spec {A} (l : list A) i :
  py_get l i =
  match (if (0 <=? i)%Z then Some (Z.to_nat i)
         else if (0 <=? i + Z.of_nat (List.length l))%Z then Some (Z.to_nat (i + Z.of_nat (List.length l)))
         else None) with
  | Some k => match nth_error l k with Some a => Ok a | None => Err IndexError end
  | None => Err IndexError
  end.
Proof.
  unfold py_get. destruct (i <? 0)%Z eqn:E.
  - destruct (0 <=? i)%Z eqn:E2; [lia|].
    destruct (i + Z.of_nat (List.length l) <? 0)%Z eqn:E3;
      destruct (0 <=? i + Z.of_nat (List.length l))%Z eqn:E4; try lia; reflexivity.
  - destruct (0 <=? i)%Z eqn:E2; [|lia]. rewrite E. reflexivity.
Qed.

(* position of a Python index *)
Lemma py_get_ok {A} (l : list A) i a :
  py_get l i = Ok a <->
  (exists k, (k < List.length l)%nat /\ (Z.of_nat k = i \/ Z.of_nat k = i + Z.of_nat (List.length l))%Z
             /\ nth_error l k = Some a).
Proof.
  unfold py_get. split.
  - intros H. destruct (i <? 0)%Z eqn:E.
    + destruct (i + Z.of_nat (List.length l) <? 0)%Z eqn:E2; [discriminate|].
      destruct (nth_error l _) eqn:E3; [|discriminate]. injection H as ->.
      exists (Z.to_nat (i + Z.of_nat (List.length l))). repeat split; try lia. exact E3.
    + rewrite E in H. destruct (nth_error l _) eqn:E3; [|discriminate]. injection H as ->.
      assert (Z.to_nat i < List.length l)%nat by (apply nth_error_Some; congruence).
      exists (Z.to_nat i). repeat split; try lia. exact E3.
  - intros (k & Hk & Hi & Hn). destruct (i <? 0)%Z eqn:E.
    + destruct (i + Z.of_nat (List.length l) <? 0)%Z eqn:E2; [lia|].
      replace (Z.to_nat (i + Z.of_nat (List.length l))) with k by lia. now rewrite Hn.
    + rewrite E. replace (Z.to_nat i) with k by lia. now rewrite Hn.
Qed.

Lemma py_slice_block {A} (l : list A) a b :
  (0 <= a <= b)%Z -> (b <= Z.of_nat (List.length l))%Z ->
  block_at l (py_slice l (Some a) (Some b)) (Z.to_nat a) /\
  List.length (py_slice l (Some a) (Some b)) = Z.to_nat (b - a).
Proof.
  intros Ha Hb. unfold py_slice, slice_bound.
  destruct (a <? 0)%Z eqn:E1; [lia|]. destruct (b <? 0)%Z eqn:E2; [lia|].
  rewrite !Z.min_l by lia. split.
  - exists (firstn (Z.to_nat a) l), (skipn (Z.to_nat (b - a)) (skipn (Z.to_nat a) l)).
    split; [|rewrite firstn_length; lia].
    rewrite (firstn_skipn (Z.to_nat (b - a)) (skipn (Z.to_nat a) l)).
    symmetry; apply firstn_skipn.
  - rewrite firstn_length, skipn_length. lia.
Qed.

(** ** subsequence_index *)

Lemma strs_eqb_eq a b : strs_eqb a b = true <-> a = b.
Proof.
  revert b; induction a as [|x a IH]; intros [|y b]; cbn; split; try discriminate; try reflexivity; intros H.
  - apply andb_true_iff in H as [H1 H2]. apply String.eqb_eq in H1. apply IH in H2. congruence.
  - injection H as -> ->. rewrite String.eqb_refl. cbn. now apply IH.
Qed.

Lemma oindex_Some x l p : oindex x l = Some p -> nth_error l p = Some x.
Proof.
  revert p; induction l as [|y l IH]; cbn; intros p H; [discriminate|].
  destruct (String.eqb x y) eqn:E.
  - injection H as <-. apply String.eqb_eq in E. now subst.
  - destruct (oindex x l); [|discriminate]. injection H as <-. cbn. auto.
Qed.

Lemma oindex_complete x l p : NoDup l -> nth_error l p = Some x -> oindex x l = Some p.
Proof.
  revert p; induction l as [|y l IH]; cbn; intros p Hnd H; [destruct p; discriminate|].
  inversion Hnd as [|? ? Hy Hl]; subst. destruct p as [|p]; cbn in H.
  - injection H as ->. now rewrite String.eqb_refl.
  - destruct (String.eqb x y) eqn:E.
    + apply String.eqb_eq in E; subst. exfalso. apply Hy. eapply nth_error_In; eassumption.
    + now rewrite (IH _ Hl H).
Qed.

Lemma block_firstn_skipn {A} (a b : list A) p :
  block_at a b p <-> (p <= List.length a)%nat /\ firstn (List.length b) (skipn p a) = b.
Proof.
  split.
  - intros (l & r & -> & <-). split; [rewrite app_length; lia|].
    rewrite skipn_app, skipn_all, Nat.sub_diag. cbn.
    rewrite firstn_app, firstn_all, Nat.sub_diag. cbn. apply app_nil_r.
  - intros (Hp & H). exists (firstn p a), (skipn (List.length b) (skipn p a)).
    split; [|rewrite firstn_length; lia].
    rewrite <- H at 1. rewrite firstn_skipn. symmetry. apply firstn_skipn.
Qed.

Lemma subsequence_index_Some s1 s2 p q :
  subsequence_index s1 s2 = Some (p, q) -> block_at s1 s2 p /\ q = (p + List.length s2)%nat.
Proof.
  unfold subsequence_index. intros H.
  assert (Hb : exists base, match s2 with [] => Some O | x :: _ => oindex x s1 end = Some base)
    by (destruct (match s2 with [] => _ | _ => _ end); [eauto|discriminate]).
  destruct Hb as (base & Hb). rewrite Hb in H.
  destruct (strs_eqb _ s2) eqn:E; [|discriminate]. injection H as <- <-.
  apply strs_eqb_eq in E. split; [|reflexivity]. apply block_firstn_skipn. split; [|exact E].
  destruct s2 as [|x s2].
  - injection Hb as <-. lia.
  - apply oindex_Some in Hb. assert (base < List.length s1)%nat by (apply nth_error_Some; congruence). lia.
Qed.

Lemma subsequence_index_None s1 s2 :
  NoDup s1 -> subsequence_index s1 s2 = None -> forall p, ~ block_at s1 s2 p.
Proof.
  intros Hnd H p Hp. unfold subsequence_index in H. destruct s2 as [|x s2].
  - cbn in H. discriminate.
  - assert (Hx : oindex x s1 = Some p).
    { apply oindex_complete; [exact Hnd|]. destruct Hp as (l & r & -> & <-).
      rewrite nth_error_app2 by lia. now rewrite Nat.sub_diag. }
    rewrite Hx in H. apply block_firstn_skipn in Hp as [_ Hp].
    apply strs_eqb_eq in Hp. rewrite Hp in H. discriminate.
Qed.

(** ** ordered-set objects *)


Lemma combine_zseq_get items k x i :
  NoDup items ->
  dict_get x (combine items (map (fun z => k + z)%Z (zseq (List.length items)))) = Some i <->
  (k <= i)%Z /\ nth_error items (Z.to_nat (i - k)) = Some x.
Proof.
  revert k; induction items as [|y items IH]; intros k Hnd; cbn [List.length combine].
  - cbn. split; [discriminate|]. intros [_ H]. destruct (Z.to_nat (i - k)); discriminate.
  - replace (zseq (S (List.length items))) with (0%Z :: map (fun z => 1 + z)%Z (zseq (List.length items)))
      by (change (S (List.length items)) with (1 + List.length items)%nat;
          rewrite (zseq_map_add 1 _ (fun z => z)); reflexivity).
    cbn [map combine dict_get]. rewrite map_map. inversion Hnd as [|? ? Hy Hl]; subst.
    destruct (String.eqb_spec x y) as [->|Hne].
    + split.
      * intros H; injection H as <-. split; [lia|].
        replace (k + 0 - k)%Z with 0%Z by lia. reflexivity.
      * intros [H1 H2]. f_equal. destruct (Z.to_nat (i - k)) eqn:E; [lia|]. cbn in H2.
        exfalso. apply Hy. eapply nth_error_In; eassumption.
    + rewrite (map_ext _ (fun z => (k + 1) + z)%Z) by (intros; lia). rewrite (IH (k + 1)%Z Hl).
      split; intros [H1 H2].
      * split; [lia|]. replace (Z.to_nat (i - k)) with (S (Z.to_nat (i - (k + 1)))) by lia. exact H2.
      * destruct (Z.to_nat (i - k)) eqn:E; [cbn in H2; congruence|].
        split; [lia|]. replace (Z.to_nat (i - (k + 1))) with n by lia. exact H2.
Qed.

Lemma oset_new_ok l : oset_ok (oset_new l) /\ oitems (oset_new l) = oset_of l.
Proof.
  split; [|reflexivity]. unfold oset_ok, oset_new. cbn [oitems omap].
  pose proof (oset_of_NoDup l) as Hnd. split; [exact Hnd|]. split.
  - assert (E : map fst (combine (oset_of l) (zseq (List.length (oset_of l)))) = oset_of l).
    { generalize (oset_of l) as k. intros k.
      assert (G : forall (z : list Z), List.length z = List.length k -> map fst (combine k z) = k).
      { induction k as [|a k IH]; intros [|b z] H; cbn in *; try discriminate; [reflexivity|]. rewrite IH; [reflexivity|lia]. }
      apply G. apply zseq_length. }
    now rewrite E.
  - intros x i. pose proof (combine_zseq_get (oset_of l) 0 x i Hnd) as H.
    rewrite (map_ext _ (fun z => z)), map_id in H by (intros; lia).
    rewrite H. now rewrite Z.sub_0_r.
Qed.

Lemma bump_get keys m x :
  dict_get x (bump keys m) =
  match dict_get x m with
  | Some v => Some (if str_mem x keys then v + 1 else v)%Z
  | None => None
  end.
Proof.
  unfold bump. induction m as [|[k v] m IH]; cbn; [reflexivity|].
  destruct (str_mem k keys) eqn:E; cbn; destruct (String.eqb_spec x k) as [->|]; rewrite ?E; auto.
Qed.

Lemma bump_keys keys m : map fst (bump keys m) = map fst m.
Proof.
  unfold bump. rewrite map_map. apply map_ext. intros [k v]. cbn. destruct (str_mem k keys); reflexivity.
Qed.

Lemma nth_error_NoDup {A} (l : list A) i j x :
  NoDup l -> nth_error l i = Some x -> nth_error l j = Some x -> i = j.
Proof.
  intros H Hi Hj. eapply NoDup_nth_error; [exact H| |congruence].
  apply nth_error_Some. congruence.
Qed.

Lemma nth_error_insert {A} (l : list A) p x j : (p <= List.length l)%nat ->
  nth_error (firstn p l ++ x :: skipn p l) j =
  if Nat.ltb j p then nth_error l j else if Nat.eqb j p then Some x else nth_error l (j - 1).
Proof.
  intros Hp. assert (Hlen : List.length (firstn p l) = p) by (rewrite firstn_length; lia).
  destruct (Nat.ltb_spec j p) as [H|H].
  - rewrite nth_error_app1 by lia. rewrite <- (firstn_skipn p l) at 2. now rewrite nth_error_app1 by lia.
  - rewrite nth_error_app2 by lia. rewrite Hlen. destruct (Nat.eqb_spec j p) as [->|Hn].
    + now rewrite Nat.sub_diag.
    + rewrite <- (firstn_skipn p l) at 2. rewrite nth_error_app2 by lia. rewrite Hlen.
      destruct (j - p)%nat eqn:E; [lia|]. cbn. f_equal. lia.
Qed.

Lemma oset_insert_spec s i obj :
  oset_ok s -> (0 <= i <= Z.of_nat (List.length (oitems s)))%Z ->
  oset_ok (oset_insert s i obj) /\
  oitems (oset_insert s i obj) =
    (if str_mem obj (oitems s) then oitems s
     else firstn (Z.to_nat i) (oitems s) ++ obj :: skipn (Z.to_nat i) (oitems s))%list.
Proof.
  intros (Hnd & Hkeys & Hmap) Hi. unfold oset_insert.
  assert (Hin : dict_get obj (omap s) = None <-> ~ In obj (oitems s)).
  { destruct (dict_get obj (omap s)) as [v|] eqn:E.
    - split; [discriminate|]. intros H. apply Hmap in E as [_ E]. exfalso. apply H. eapply nth_error_In; eassumption.
    - split; [|auto]. intros _ H. apply In_nth_error in H as (n & Hn).
      assert (E2 : dict_get obj (omap s) = Some (Z.of_nat n)) by (apply Hmap; split; [lia|now rewrite Nat2Z.id]).
      congruence. }
  destruct (dict_get obj (omap s)) as [v|] eqn:E.
  - assert (Ho : str_mem obj (oitems s) = true).
    { destruct (str_mem obj (oitems s)) eqn:E2; [reflexivity|]. apply str_mem_notIn in E2.
      apply Hin in E2. discriminate. }
    rewrite Ho. split; [|reflexivity]. split; [exact Hnd|split; [exact Hkeys|exact Hmap]].
  - assert (Hni : ~ In obj (oitems s)) by (apply Hin; reflexivity).
    assert (Ho : str_mem obj (oitems s) = false) by (now apply str_mem_notIn).
    rewrite Ho.
    assert (Hp : ins_pos (List.length (oitems s)) i = Z.to_nat i).
    { unfold ins_pos, slice_bound. destruct (i <? 0)%Z eqn:E2; [lia|]. rewrite Z.min_l by lia. reflexivity. }
    rewrite Hp. cbn [oitems omap]. split; [|reflexivity].
    set (p := Z.to_nat i) in *. assert (Hpl : (p <= List.length (oitems s))%nat) by lia.
    split; [|split].
    + cbn. apply (NoDup_Add (l := (firstn p (oitems s) ++ skipn p (oitems s))%list) (a := obj)); [apply Add_app|].
      rewrite firstn_skipn. auto.
    + cbn. apply dict_set_NoDup. rewrite bump_keys. exact Hkeys.
    + cbn [oitems omap]. intros x j. destruct (string_dec x obj) as [->|Hne].
      * rewrite dict_get_set_same. split.
        -- intros H; injection H as <-. split; [lia|]. rewrite nth_error_insert by lia.
           fold p. destruct (Nat.ltb_spec p p); [lia|]. now rewrite Nat.eqb_refl.
        -- intros [H1 H2]. f_equal. rewrite nth_error_insert in H2 by lia.
           destruct (Nat.ltb_spec (Z.to_nat j) p); [exfalso; apply Hni; eapply nth_error_In; eassumption|].
           destruct (Nat.eqb_spec (Z.to_nat j) p); [lia|]. exfalso; apply Hni; eapply nth_error_In; eassumption.
      * rewrite dict_get_set_other by assumption. rewrite bump_get.
        rewrite nth_error_insert by lia.
        assert (Hsk : forall v, dict_get x (omap s) = Some v -> str_mem x (skipn p (oitems s)) = (Z.of_nat p <=? v)%Z).
        { intros v Hv. apply Hmap in Hv as [Hv0 Hv].
          destruct (Z.of_nat p <=? v)%Z eqn:E2.
          - apply str_mem_In. apply (nth_error_In _ (Z.to_nat v - p)).
            rewrite <- (firstn_skipn p (oitems s)) in Hv. rewrite nth_error_app2 in Hv by (rewrite firstn_length; lia).
            rewrite firstn_length in Hv. rewrite Nat.min_l in Hv by lia. exact Hv.
          - apply str_mem_notIn. intros H. apply In_nth_error in H as (m & Hm).
            assert (Hm2 : nth_error (oitems s) (p + m) = Some x).
            { rewrite <- (firstn_skipn p (oitems s)). rewrite nth_error_app2 by (rewrite firstn_length; lia).
              rewrite firstn_length, Nat.min_l by lia. replace (p + m - p)%nat with m by lia. exact Hm. }
            pose proof (nth_error_NoDup _ _ _ _ Hnd Hv Hm2). lia. }
        destruct (dict_get x (omap s)) as [v|] eqn:Ev.
        -- rewrite (Hsk v eq_refl). pose proof Ev as Ev'. apply Hmap in Ev' as [Hv0 Hv].
           destruct (Z.of_nat p <=? v)%Z eqn:E2.
           ++ split.
              ** intros H; injection H as <-. split; [lia|].
                 destruct (Nat.ltb_spec (Z.to_nat (v + 1)) p); [lia|].
                 destruct (Nat.eqb_spec (Z.to_nat (v + 1)) p); [lia|].
                 replace (Z.to_nat (v + 1) - 1)%nat with (Z.to_nat v) by lia. exact Hv.
              ** intros [H1 H2]. f_equal.
                 destruct (Nat.ltb_spec (Z.to_nat j) p).
                 { pose proof (nth_error_NoDup _ _ _ _ Hnd Hv H2). lia. }
                 destruct (Nat.eqb_spec (Z.to_nat j) p); [congruence|].
                 pose proof (nth_error_NoDup _ _ _ _ Hnd Hv H2). lia.
           ++ split.
              ** intros H; injection H as <-. split; [lia|].
                 destruct (Nat.ltb_spec (Z.to_nat v) p); [exact Hv|lia].
              ** intros [H1 H2]. f_equal.
                 destruct (Nat.ltb_spec (Z.to_nat j) p).
                 { pose proof (nth_error_NoDup _ _ _ _ Hnd Hv H2). lia. }
                 destruct (Nat.eqb_spec (Z.to_nat j) p); [congruence|].
                 pose proof (nth_error_NoDup _ _ _ _ Hnd Hv H2). lia.
        -- split; [discriminate|]. intros [H1 H2].
           assert (Hx : ~ In x (oitems s)).
           { intros H. apply In_nth_error in H as (n & Hn).
             assert (E2 : dict_get x (omap s) = Some (Z.of_nat n)) by (apply Hmap; split; [lia|now rewrite Nat2Z.id]).
             congruence. }
           destruct (Nat.ltb_spec (Z.to_nat j) p); [exfalso; apply Hx; eapply nth_error_In; eassumption|].
           destruct (Nat.eqb_spec (Z.to_nat j) p); [congruence|]. exfalso; apply Hx; eapply nth_error_In; eassumption.
Qed.

(** ** deletion of several positions *)


Lemma zmem_In z l : zmem z l = true <-> In z l.
Proof.
  unfold zmem. rewrite existsb_exists. split.
  - intros (x & H & E). apply Z.eqb_eq in E. now subst.
  - intros H. exists z. now rewrite Z.eqb_refl.
Qed.


Lemma keepz_none k l P : (forall i, In i P -> i < k)%Z -> keepz k l P = l.
Proof.
  revert k; induction l as [|x l IH]; intros k H; cbn; [reflexivity|].
  destruct (zmem k P) eqn:E; [apply zmem_In in E; apply H in E; lia|].
  rewrite IH; [reflexivity|]. intros i Hi; specialize (H i Hi); lia.
Qed.

Lemma keepz_del l : forall k i P, (forall j, In j P -> j < i)%Z -> (k <= i < k + Z.of_nat (List.length l))%Z ->
  keepz k (firstn (Z.to_nat (i - k)) l ++ skipn (S (Z.to_nat (i - k))) l) P = keepz k l (i :: P).
Proof.
  induction l as [|x l IH]; intros k i P HP Hi; [cbn in Hi; lia|].
  destruct (Z.to_nat (i - k)) as [|n] eqn:E.
  - replace i with k in * by lia. cbn [firstn skipn app keepz].
    unfold zmem at 1. cbn [existsb]. rewrite Z.eqb_refl. cbn.
    rewrite keepz_none by (intros; apply HP; assumption). rewrite keepz_none; [reflexivity|].
    intros j [<-|Hj]; [lia|]. specialize (HP j Hj). lia.
  - cbn [firstn skipn app keepz]. cbn [List.length] in Hi.
    assert (Hm : zmem k (i :: P) = zmem k P).
    { unfold zmem. cbn [existsb]. destruct (Z.eqb_spec k i); [lia|reflexivity]. }
    rewrite Hm. specialize (IH (k + 1)%Z i P HP ltac:(lia)).
    replace (Z.to_nat (i - (k + 1))) with n in IH by lia. cbn [skipn] in IH. rewrite IH. reflexivity.
Qed.

Lemma keepz_ext l : forall k P Q, (forall i, In i P <-> In i Q) -> keepz k l P = keepz k l Q.
Proof.
  induction l as [|x l IH]; intros k P Q H; cbn; [reflexivity|].
  assert (E : zmem k P = zmem k Q).
  { destruct (zmem k P) eqn:E1, (zmem k Q) eqn:E2; try reflexivity.
    - apply zmem_In, H, zmem_In in E1. congruence.
    - apply zmem_In, H, zmem_In in E2. congruence. }
  rewrite E, (IH _ _ _ H). reflexivity.
Qed.

Lemma del_at_length (l : list string) i : (0 <= i < Z.of_nat (List.length l))%Z ->
  Z.of_nat (List.length (del_at l i)) = (Z.of_nat (List.length l) - 1)%Z.
Proof. intros H. unfold del_at. rewrite app_length, firstn_length, skipn_length. lia. Qed.

Lemma fold_del idxs : forall l, StronglySorted (fun a b => b < a)%Z idxs ->
  Forall (fun i => 0 <= i < Z.of_nat (List.length l))%Z idxs ->
  fold_left del_at idxs l = keepz 0 l idxs.
Proof.
  induction idxs as [|i idxs IH]; intros l Hs Hf; cbn [fold_left].
  - symmetry. apply keepz_none. intros ? [].
  - inversion Hs as [|? ? Hs' Hlt]; inversion Hf as [|? ? Hi Hf']; subst.
    rewrite Forall_forall in Hlt.
    rewrite IH; [|exact Hs'|].
    + pose proof (keepz_del l 0 i idxs Hlt ltac:(lia)) as K. rewrite Z.sub_0_r in K. exact K.
    + rewrite Forall_forall in Hf' |- *. intros j Hj. specialize (Hf' j Hj). specialize (Hlt j Hj).
      rewrite del_at_length by lia. lia.
Qed.

Definition cnt (P : list Z) (k v : Z) : nat := List.length (filter (fun i => (k <=? i) && (i <? v))%Z P).

Lemma cnt_step P k v : NoDup P -> (k < v)%Z ->
  cnt P k v = ((if zmem k P then 1 else 0) + cnt P (k + 1) v)%nat.
Proof.
  intros Hnd Hkv. unfold cnt. induction Hnd as [|p P Hp _ IH]; [reflexivity|].
  cbn [filter zmem existsb]. unfold zmem in IH. destruct (Z.eqb_spec k p) as [->|Hne].
  - assert (existsb (Z.eqb p) P = false).
    { destruct (existsb (Z.eqb p) P) eqn:E; [|reflexivity]. apply (zmem_In p P) in E. tauto. }
    rewrite H in IH. replace ((p <=? p) && (p <? v))%Z with true by lia.
    replace ((p + 1 <=? p) && (p <? v))%Z with false by lia. cbn. lia.
  - replace ((k + 1 <=? p) && (p <? v))%Z with ((k <=? p) && (p <? v))%Z by lia. cbn [orb].
    destruct ((k <=? p) && (p <? v))%Z; cbn; lia.
Qed.

Lemma cnt_le P k v : (v <= k)%Z -> cnt P k v = 0%nat.
Proof.
  intros H. unfold cnt. induction P as [|p P IH]; [reflexivity|]. cbn [filter].
  replace ((k <=? p) && (p <? v))%Z with false by lia. exact IH.
Qed.

Lemma keepz_nth l : forall k P n x, NoDup P ->
  nth_error l n = Some x -> ~ In (k + Z.of_nat n)%Z P ->
  (cnt P k (k + Z.of_nat n) <= n)%nat /\
  nth_error (keepz k l P) (n - cnt P k (k + Z.of_nat n)) = Some x.
Proof.
  induction l as [|y l IH]; intros k P n x HP Hn Hni; [destruct n; discriminate|].
  destruct n as [|n]; cbn in Hn.
  - injection Hn as ->. rewrite cnt_le by lia. split; [lia|]. cbn [keepz Nat.sub].
    destruct (zmem k P) eqn:E; [|reflexivity]. apply zmem_In in E. exfalso. apply Hni.
    now replace (k + Z.of_nat 0)%Z with k by lia.
  - rewrite (cnt_step P k) by (assumption || lia). cbn [keepz].
    replace (k + Z.of_nat (S n))%Z with (k + 1 + Z.of_nat n)%Z in * by lia.
    destruct (IH (k + 1)%Z P n x HP Hn Hni) as [H1 H2].
    destruct (zmem k P).
    + split; [lia|]. replace (S n - (1 + cnt P (k + 1) (k + 1 + Z.of_nat n)))%nat
        with (n - cnt P (k + 1) (k + 1 + Z.of_nat n))%nat by lia. exact H2.
    + split; [lia|]. replace (S n - (0 + cnt P (k + 1) (k + 1 + Z.of_nat n)))%nat
        with (S (n - cnt P (k + 1) (k + 1 + Z.of_nat n)))%nat by lia. exact H2.
Qed.

Lemma keepz_In l : forall k P x, In x (keepz k l P) ->
  exists n, nth_error l n = Some x /\ ~ In (k + Z.of_nat n)%Z P.
Proof.
  induction l as [|y l IH]; intros k P x; cbn; [tauto|].
  assert (G : In x (keepz (k + 1) l P) -> exists n, nth_error (y :: l) n = Some x /\ ~ In (k + Z.of_nat n)%Z P).
  { intros H. apply IH in H as (n & Hn & Hni). exists (S n). split; [exact Hn|].
    now replace (k + Z.of_nat (S n))%Z with (k + 1 + Z.of_nat n)%Z by lia. }
  destruct (zmem k P) eqn:E; [exact G|]. intros [->|H]; [|auto]. exists 0%nat. split; [reflexivity|].
  rewrite Z.add_0_r. intros H. apply zmem_In in H. congruence.
Qed.

Lemma keepz_subseq l : forall k P, subseq (keepz k l P) l.
Proof. induction l as [|y l IH]; intros k P; cbn; [constructor|]. destruct (zmem k P); constructor; auto. Qed.

Lemma subseq_In {A} (a b : list A) x : subseq a b -> In x a -> In x b.
Proof. induction 1; cbn; intuition. Qed.

Lemma subseq_NoDup {A} (a b : list A) : subseq a b -> NoDup b -> NoDup a.
Proof.
  induction 1 as [|x a b H IH|x a b H IH]; intros Hnd; [constructor| |]; inversion Hnd; subst; auto.
  constructor; auto. intros Hi. eapply subseq_In in Hi; eauto.
Qed.

(* sort_desc *)
Lemma insert_desc_perm z l : Permutation (insert_desc z l) (z :: l).
Proof.
  induction l as [|y l IH]; cbn; [reflexivity|]. destruct (y <=? z)%Z; [reflexivity|].
  rewrite IH. constructor.
Qed.

Lemma sort_desc_perm l : Permutation (sort_desc l) l.
Proof. induction l as [|y l IH]; cbn; [reflexivity|]. rewrite insert_desc_perm. now constructor. Qed.

Lemma insert_desc_sorted z l : ~ In z l -> StronglySorted (fun a b => b < a)%Z l ->
  StronglySorted (fun a b => b < a)%Z (insert_desc z l).
Proof.
  induction l as [|y l IH]; intros Hz Hs; cbn; [repeat constructor|].
  inversion Hs as [|? ? Hs' Hf]; subst. cbn in Hz. destruct (y <=? z)%Z eqn:E.
  - constructor; [exact Hs|]. constructor; [lia|]. eapply Forall_impl; [|exact Hf]. intros a Ha. cbn in Ha. lia.
  - constructor; [apply IH; tauto|]. apply Forall_forall. intros a Ha.
    apply (Permutation_in _ (insert_desc_perm z l)) in Ha. destruct Ha as [<-|Ha]; [lia|].
    rewrite Forall_forall in Hf. auto.
Qed.

Lemma sort_desc_sorted l : NoDup l -> StronglySorted (fun a b => b < a)%Z (sort_desc l).
Proof.
  induction 1 as [|x l Hx _ IH]; cbn; [constructor|]. apply insert_desc_sorted; [|exact IH].
  intros H. apply Hx. eapply Permutation_in; [apply sort_desc_perm|exact H].
Qed.

Lemma dict_del_spec {V} k (d : list (string * V)) :
  NoDup (map fst d) ->
  match dict_del k d with
  | Some d' => In k (map fst d) /\ NoDup (map fst d') /\
               (forall x, dict_get x d' = if String.eqb x k then None else dict_get x d) /\
               (forall x, In x (map fst d') <-> In x (map fst d) /\ x <> k)
  | None => ~ In k (map fst d)
  end.
Proof.
  induction d as [|[k' v'] d IH]; cbn; intros Hnd; [auto|]. inversion Hnd as [|? ? Hk Hd]; subst.
  destruct (String.eqb_spec k k') as [->|Hne].
  - split; [now left|]. split; [exact Hd|]. split.
    + intros x. destruct (String.eqb_spec x k') as [->|]; [|reflexivity]. now apply dict_get_None.
    + intros x. split.
      * intros Hx. split; [now right|]. intros ->. tauto.
      * intros [[<-|Hx] Hn]; [congruence|exact Hx].
  - specialize (IH Hd). destruct (dict_del k d) as [d'|]; cbn.
    + destruct IH as (H1 & H2 & H3 & H4). split; [now right|]. split.
      * constructor; [|exact H2]. rewrite H4. tauto.
      * split.
        -- intros x. rewrite H3. destruct (String.eqb_spec x k') as [->|]; [|reflexivity].
           destruct (String.eqb_spec k' k); [congruence|reflexivity].
        -- intros x. rewrite H4. intuition congruence.
    + intuition congruence.
Qed.

Lemma dict_del_all_spec {V} ks : forall (d : list (string * V)),
  NoDup (map fst d) -> NoDup ks -> (forall k, In k ks -> In k (map fst d)) ->
  exists d', dict_del_all ks d = Ok d' /\ NoDup (map fst d') /\
    forall x, dict_get x d' = if str_mem x ks then None else dict_get x d.
Proof.
  induction ks as [|k ks IH]; intros d Hnd Hks Hin; cbn.
  - eauto.
  - inversion Hks as [|? ? Hk Hks']; subst. pose proof (dict_del_spec k d Hnd) as S.
    destruct (dict_del k d) as [d1|]; [|exfalso; apply S, Hin; now left].
    destruct S as (_ & S2 & S3 & S4). destruct (IH d1 S2 Hks') as (d' & E & N & G).
    + intros x Hx. apply S4. split; [apply Hin; now right|]. intros ->; tauto.
    + exists d'. split; [exact E|]. split; [exact N|]. intros x. rewrite G, S3.
      destruct (String.eqb x k); cbn; [now destruct (str_mem x ks)|reflexivity].
Qed.

Lemma dict_get_mapval {V W} (g : V -> W) (d : list (string * V)) x :
  dict_get x (map (fun kv => (fst kv, g (snd kv))) d) = option_map g (dict_get x d).
Proof. induction d as [|[k v] d IH]; cbn; [reflexivity|]. destruct (String.eqb x k); auto. Qed.

Lemma oset_delitems_spec s idxs :
  oset_ok s -> NoDup idxs -> Forall (fun i => 0 <= i < Z.of_nat (List.length (oitems s)))%Z idxs ->
  exists s', oset_delitems s idxs = Ok s' /\ oset_ok s' /\ oitems s' = keepz 0 (oitems s) idxs.
Proof.
  intros (Hnd & Hkeys & Hmap) Hi Hr. unfold oset_delitems.
  assert (Hrem : exists rem, mapR (py_get (oitems s)) idxs = Ok rem /\
            Forall2 (fun i x => nth_error (oitems s) (Z.to_nat i) = Some x) idxs rem).
  { clear Hi. induction Hr as [|i idxs Hi0 _ (rem & E & F)]; [exists []; repeat constructor|].
    destruct (nth_error (oitems s) (Z.to_nat i)) as [x|] eqn:En;
      [|apply nth_error_None in En; lia].
    exists (x :: rem). split; [|constructor; assumption]. cbn.
    assert (Hg : py_get (oitems s) i = Ok x).
    { apply py_get_ok. exists (Z.to_nat i). split; [lia|]. split; [left; lia|exact En]. }
    now rewrite Hg, E. }
  destruct Hrem as (rem & Erem & Frem). rewrite Erem. cbn [bind].
  assert (Eidx : mapR (fun k => match dict_get k (omap s) with Some v => Ok v | None => Err KeyError end) rem = Ok idxs).
  { clear Erem Hi. induction Frem as [|i x idxs rem Hx _ IH]; [reflexivity|]. inversion Hr; subst. cbn.
    assert (Hg : dict_get x (omap s) = Some i) by (apply Hmap; split; [lia|exact Hx]).
    now rewrite Hg, IH. }
  rewrite Eidx. cbn [bind].
  assert (Hremnd : NoDup rem).
  { clear Erem Eidx. induction Frem as [|i x idxs rem Hx Fr IH]; [constructor|].
    inversion Hi as [|? ? Hni Hi']; inversion Hr as [|? ? Hr0 Hr']; subst. constructor; auto.
    intros Hin. apply In_nth_error in Hin as (n & Hn).
    assert (G : exists j, nth_error idxs n = Some j /\ nth_error (oitems s) (Z.to_nat j) = Some x).
    { clear -Fr Hn. revert n Hn. induction Fr as [|j y js ys Hj _ IH]; intros [|n] Hn; cbn in *; try discriminate.
      - injection Hn as ->. eauto.
      - auto. }
    destruct G as (j & Hj & Hx2). pose proof (nth_error_NoDup _ _ _ _ Hnd Hx Hx2) as Eij.
    apply nth_error_In in Hj. rewrite Forall_forall in Hr'. specialize (Hr' j Hj).
    assert (i = j) by lia. subst. tauto. }
  destruct (dict_del_all_spec rem (omap s) Hkeys Hremnd) as (m & Em & Nm & Gm).
  { intros k Hk. destruct (in_dec string_dec k (map fst (omap s))) as [H|H]; [exact H|].
    apply dict_get_None in H. apply In_nth_error in Hk as (n & Hn).
    assert (G : exists j, nth_error (oitems s) j = Some k).
    { clear -Frem Hn. revert n Hn. induction Frem as [|j y js ys Hj _ IH]; intros [|n] Hn; cbn in *; try discriminate.
      - injection Hn as ->. eauto.
      - eauto. }
    destruct G as (j & Hj).
    assert (E2 : dict_get k (omap s) = Some (Z.of_nat j)) by (apply Hmap; split; [lia|now rewrite Nat2Z.id]).
    congruence. }
  rewrite Em. cbn [bind]. eexists. split; [reflexivity|].
  set (S := sort_desc idxs). assert (HP : Permutation S idxs) by apply sort_desc_perm.
  assert (HS : NoDup S) by (eapply Permutation_NoDup; [symmetry; exact HP|exact Hi]).
  assert (Hitems : fold_left del_at S (oitems s) = keepz 0 (oitems s) idxs).
  { rewrite fold_del.
    - apply keepz_ext. intros i. split; intros H; eapply Permutation_in; try exact H; [exact HP|now symmetry].
    - now apply sort_desc_sorted.
    - eapply Permutation_Forall; [symmetry; exact HP|exact Hr]. }
  split; [|exact Hitems].
  assert (Hin_rem : forall x v, dict_get x (omap s) = Some v -> (str_mem x rem = true <-> In v idxs)).
  { intros x v Hv. apply Hmap in Hv as [Hv0 Hv]. rewrite str_mem_In. split.
    - intros H. apply In_nth_error in H as (n & Hn).
      assert (G : exists j, nth_error idxs n = Some j /\ nth_error (oitems s) (Z.to_nat j) = Some x).
      { clear -Frem Hn. revert n Hn. induction Frem as [|j y js ys Hj _ IH]; intros [|n] Hn; cbn in *; try discriminate.
        - injection Hn as ->. eauto.
        - auto. }
      destruct G as (j & Hj & Hx2). pose proof (nth_error_NoDup _ _ _ _ Hnd Hv Hx2).
      apply nth_error_In in Hj. rewrite Forall_forall in Hr. specialize (Hr j Hj).
      assert (v = j) by lia. now subst.
    - intros H. apply In_nth_error in H as (n & Hn).
      assert (G : exists y, nth_error rem n = Some y /\ nth_error (oitems s) (Z.to_nat v) = Some y).
      { clear -Frem Hn. revert n Hn. induction Frem as [|j y js ys Hj _ IH]; intros [|n] Hn; cbn in *; try discriminate.
        - injection Hn as ->. eauto.
        - auto. }
      destruct G as (y & Hy & Hy2). assert (x = y) by congruence. subst. eapply nth_error_In; eassumption. }
  assert (Hcount : forall v, ~ In v idxs -> (0 <= v)%Z -> count_ge S v = Z.of_nat (cnt S 0 v)).
  { intros v Hv Hv0. unfold count_ge, cnt. f_equal. f_equal.
    apply filter_ext_in. intros i His. apply (Permutation_in _ HP) in His.
    rewrite Forall_forall in Hr. specialize (Hr i His).
    assert (i <> v) by (intros ->; tauto). lia. }
  unfold oset_ok. cbn [oitems omap]. rewrite Hitems. split; [|split].
  - eapply subseq_NoDup; [apply keepz_subseq|exact Hnd].
  - rewrite map_map. cbn. exact Nm.
  - intros x i. rewrite (dict_get_mapval (fun v => v - count_ge S v)%Z m x), Gm.
    assert (Kext : keepz 0 (oitems s) idxs = keepz 0 (oitems s) S).
    { apply keepz_ext. intros j. split; intros H; eapply Permutation_in; try exact H; [now symmetry|exact HP]. }
    assert (Hfwd : forall v, dict_get x (omap s) = Some v -> ~ In v idxs ->
              (0 <= v - count_ge S v)%Z /\
              nth_error (keepz 0 (oitems s) idxs) (Z.to_nat (v - count_ge S v)) = Some x).
    { intros v Hv Hni. pose proof Hv as Hv'. apply Hmap in Hv' as [Hv0 Hvn].
      rewrite Hcount by assumption.
      destruct (keepz_nth (oitems s) 0 S (Z.to_nat v) x HS Hvn) as [K1 K2].
      { rewrite Z.add_0_l, Z2Nat.id by lia. intros H. apply Hni. eapply Permutation_in; [exact HP|exact H]. }
      rewrite Z.add_0_l, Z2Nat.id in K1, K2 by lia. split; [lia|].
      rewrite Kext. rewrite <- K2. f_equal. lia. }
    assert (Hkn : NoDup (keepz 0 (oitems s) idxs))
      by (eapply subseq_NoDup; [apply keepz_subseq|exact Hnd]).
    split.
    + intros H. destruct (str_mem x rem) eqn:E; [discriminate|].
      destruct (dict_get x (omap s)) as [v|] eqn:Ev; [|discriminate]. cbn in H. injection H as <-.
      apply Hfwd; [reflexivity|]. intros Hv. apply (Hin_rem x v Ev) in Hv. congruence.
    + intros [H1 H2]. pose proof (nth_error_In _ _ H2) as Hx. apply keepz_In in Hx as (n & Hn & Hni).
      rewrite Z.add_0_l in Hni.
      assert (Ev : dict_get x (omap s) = Some (Z.of_nat n)) by (apply Hmap; split; [lia|now rewrite Nat2Z.id]).
      destruct (str_mem x rem) eqn:E; [apply (Hin_rem x _ Ev) in E; tauto|].
      rewrite Ev. cbn. f_equal. destruct (Hfwd _ Ev Hni) as [K1 K2].
      pose proof (nth_error_NoDup _ _ _ _ Hkn K2 H2). lia.
Qed.
