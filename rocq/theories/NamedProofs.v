(* take_channels with channel names, on images and concatenations. *)
From Verif Require Import Py PyProofs GeomModel GeomProofs GraphModel GraphSpec GraphBase GraphTake GraphSize GraphTotal FinalModel FinalSpec FinalProofs TakeModel TakeSpec TakeProofs CropProofs.
From Coq Require Import ZifyBool.
Local Open Scope Z_scope.

Definition is_concat (t : node) : bool := match t with Concat _ _ => true | _ => false end.

Lemma all_some_idx nl req : incl req nl ->
  exists idxs, all_some (map fst (code_indexes nl req)) = Some idxs /\
    Forall2 (fun c i => position c (oset_of nl) = Some i) req idxs.
Proof.
  induction req as [|c req IH]; intros H; [exists []; split; [reflexivity|constructor]|].
  destruct IH as (idxs & H1 & H2); [intros x Hx; apply H; now right|].
  destruct (position c (oset_of nl)) as [i|] eqn:E.
  - exists (i :: idxs). cbn. rewrite E. unfold code_indexes in H1. rewrite H1. split; [reflexivity|]. now constructor.
  - apply position_none in E. exfalso. apply E. apply oset_of_In. apply H. now left.
Qed.

Lemma all_some_miss nl req : ~ incl req nl -> all_some (map fst (code_indexes nl req)) = None.
Proof.
  induction req as [|c req IH]; intros H; [exfalso; apply H; intros x []|]. cbn.
  destruct (position c (oset_of nl)) as [i|] eqn:E; [|reflexivity].
  fold (code_indexes nl req). rewrite IH; [reflexivity|]. intros Hi. apply H. intros x [<- | Hx]; [|auto].
  apply position_spec in E as [_ E]. apply oset_of_In. eapply nth_error_In; exact E.
Qed.

Lemma all_some_forall nl req :
  forallb (fun oc : option Z * string => match fst oc with None => false | Some _ => true end) (code_indexes nl req) = true <->
  incl req nl.
Proof.
  rewrite forallb_forall. split.
  - intros H c Hc. specialize (H (position c (oset_of nl), c)). cbn in H.
    destruct (position c (oset_of nl)) as [i|] eqn:E.
    + apply position_spec in E as [_ E]. apply oset_of_In. eapply nth_error_In; exact E.
    + assert (X : false = true) by (apply H; apply in_map_iff; exists c; rewrite E; auto). discriminate X.
  - intros H oc Hin. apply in_map_iff in Hin as (c & <- & Hc). cbn. destruct (position c (oset_of nl)) eqn:E; [reflexivity|].
    apply position_none in E. exfalso. apply E. apply oset_of_In. auto.
Qed.

(* the name a request ends up with *)
Definition final_name (nl : list string) (c : string) : string :=
  match position c (oset_of nl) with Some i => nth (Z.to_nat i) nl EmptyString | None => c end.

Section Named.
Context {V : Type} (W : world V) (F : node -> result (array V)) (HF : finalizer W F).

Lemma single_concat t a : wf t -> tight t -> all_3d W t -> F t = Ok a -> F (Concat [t] (dsize t)) = Ok a.
Proof.
  intros Hw Ht H3 Ha. rewrite (f_concat _ _ HF). cbn. rewrite Ha. cbn.
  pose proof (shaped_c3 _ _ (F_shaped W F HF _ _ Hw Ht H3 Ha)) as E. unfold stack_bands. cbn. reflexivity.
Qed.

Lemma take_named_bands t a lazy same p req nl :
  wf t -> tight t -> all_3d W t -> F t = Ok a -> names t = Some nl -> req <> [] ->
  policy_ok p nl req \/ (incl req nl /\ is_concat t = false) ->
  exists t' a', take_named t lazy same p req = Ok t' /\ F t' = Ok a' /\ dsize t' = dsize t /\
    (req = nl /\ t' = t \/
     has a' (a_w a) (a_h a) (map (code_band W a nl) req) /\ names t' = Some (map (final_name nl) req)).
Proof.
  intros Hw Ht H3 Ha Hnl Hreq Hp.
  assert (Himg : is_concat t = false -> exists t' a',
     (if (lazy && spec_eqb same nl req)%bool then Ok t
          else match all_some (map fst (code_indexes nl req)) with
               | Some idxs => mkCrop t None (Some idxs)
               | None => take_concat [t] (dsize t) same p req
               end) = Ok t' /\ F t' = Ok a' /\ dsize t' = dsize t /\
    (req = nl /\ t' = t \/
     has a' (a_w a) (a_h a) (map (code_band W a nl) req) /\ names t' = Some (map (final_name nl) req))).
  { intros Hi. destruct (lazy && spec_eqb same nl req)%bool eqn:El.
    - exists t, a. split; [reflexivity|]. split; [exact Ha|]. split; [reflexivity|]. left.
      apply andb_prop in El as [_ El]. apply andb_prop in El as [_ El]. apply strs_eqb_eq in El. auto.
    - destruct (in_dec Bool.bool_dec true [forallb (fun oc : option Z * string => match fst oc with None => false | Some _ => true end) (code_indexes nl req)]) as [Hin|Hin].
      + destruct Hin as [Hin|[]]. apply all_some_forall in Hin. destruct (all_some_idx nl req Hin) as (idxs & E1 & E2).
        rewrite E1. destruct (wf_meta _ Hw) as (m & Hm & Hm0 & Hlen). specialize (Hlen _ Hnl).
        assert (Hr : in_range m idxs).
        { clear -E2 Hlen. induction E2 as [|c i req idxs Hc E2 IH]; constructor; [|auto].
          apply position_spec in Hc as [Hc _]. pose proof (oset_len nl). lia. }
        destruct (crop_bands W F HF _ _ _ _ _ Hw Ht H3 Ha Hnl Hm Hr) as (t' & a' & Ht' & Ha' & Hpk).
        exists t', a'. split; [exact Ht'|]. split; [exact Ha'|].
        assert (Hci : ci_ok (num_channels t) (Some idxs)).
        { intros n Hn. rewrite Hm in Hn. injection Hn as <-. exact Hr. }
        destruct (mkCrop_spec _ _ _ _ _ Hw Hm Hci Ht') as (w & h & ys & xs & nm & nc & Hd & -> & Hwc & -> & ->).
        split; [cbn [dsize]; rewrite Hd; unfold iv_len; cbn; do 2 f_equal; lia|]. right. split.
        * unfold picked in Hpk. replace (map (code_band W a nl) req) with (map (fun b r c => a_pix a r c b) idxs); [exact Hpk|].
          clear -E2. induction E2 as [|c i req idxs Hc E2 IH]; [reflexivity|]. cbn [map]. rewrite IH. f_equal.
          unfold code_band. rewrite Hc. reflexivity.
        * rewrite (crop_names _ _ _ _ _ _ _ Hwc), Hnl. cbn [sel].
          assert (E : select_names nl idxs = Ok (map (final_name nl) req)).
          { unfold select_names. apply select_spec; [eapply Forall_impl; [|exact Hr]; cbn; intros; lia|].
            clear -E2. induction E2 as [|c i req idxs Hc E2 IH]; constructor; [|exact IH].
            unfold final_name. rewrite Hc. apply position_spec in Hc as [Hc _]. pose proof (oset_len nl).
            apply nth_error_nth'. lia. }
          rewrite E. reflexivity.
      + assert (Hni : ~ incl req nl) by (intros Hx; apply Hin; left; now apply all_some_forall).
        rewrite (all_some_miss _ _ Hni). destruct Hp as [Hp|[Hp _]]; [|contradiction].
        destruct (take_concat_bands W F HF [t] (dsize t) a same p req nl) as (t' & a' & H1 & H2 & H3' & H4 & H5 & H6).
        * apply wf_concat. split; [auto|]. split; [auto|discriminate].
        * apply tight_concat. split; [discriminate|]. auto.
        * apply leafs_concat. auto.
        * now apply single_concat.
        * cbn. now rewrite Hnl, app_nil_r.
        * exact Hreq.
        * destruct same; [|reflexivity]. cbn. apply Bool.not_true_iff_false. intros E. apply strs_eqb_eq in E. apply Hni. subst nl.
          intros x Hx; exact Hx.
        * exact Hp.
        * exists t', a'. split; [exact H1|]. split; [exact H2|]. split; [exact H4|]. right. split; [exact H3'|]. exact H6. }
  destruct t as [l|ps d|s ys xs ci d nm nc|s M d al|s q d|s k d];
    try (cbn [take_named]; rewrite Hnl; exact (Himg eq_refl)).
  clear Himg. cbn [take_named]. destruct (spec_eqb same nl req) eqn:Es.
  - exists (Concat ps d), a. unfold take_concat. cbn [names] in Hnl. rewrite Hnl, Es. split; [reflexivity|]. split; [exact Ha|].
    split; [reflexivity|]. left. apply andb_prop in Es as [_ Es]. apply strs_eqb_eq in Es. auto.
  - destruct Hp as [Hp|[_ Hp]]; [|discriminate].
    destruct (take_concat_bands W F HF ps d a same p req nl Hw Ht H3 Ha Hnl Hreq Es Hp) as (t' & a' & H1 & H2 & H4 & H5 & H6 & H7).
    exists t', a'. split; [exact H1|]. split; [exact H2|]. split; [exact H5|]. right. split; [exact H4|exact H7].
Qed.

End Named.

Lemma take_named_error t lazy same req nl : names t = Some nl -> ~ incl req nl ->
  take_named t lazy same ErrorP req = Err ValueError.
Proof.
  intros Hnl Hni.
  assert (Hs : spec_eqb same nl req = false).
  { destruct same; [|reflexivity]. cbn. apply Bool.not_true_iff_false. intros E. apply strs_eqb_eq in E. apply Hni. subst nl.
    intros x Hx; exact Hx. }
  assert (Hf : forallb (fun oc : option Z * string => match fst oc with None => false | Some _ => true end) (code_indexes nl req) = false).
  { apply Bool.not_true_iff_false. intros E. now apply all_some_forall in E. }
  assert (Hc : forall ps d, concat_opt (map names ps) = Some nl -> take_concat ps d same ErrorP req = Err ValueError).
  { intros ps d E. unfold take_concat. rewrite E, Hs, Hf. reflexivity. }
  destruct t as [l|ps d|s ys xs ci d nm nc|s M d al|s q d|s k d];
    try (cbn [take_named]; rewrite Hnl, Hs, Bool.andb_false_r, (all_some_miss _ _ Hni); apply Hc;
         cbn [map concat_opt]; rewrite Hnl, app_nil_r; reflexivity).
  cbn [take_named]. now apply Hc.
Qed.

Lemma take_named_invalid_concat ps d lazy same req nl : names (Concat ps d) = Some nl -> spec_eqb same nl req = false ->
  take_named (Concat ps d) lazy same OtherP req = Err KeyError.
Proof. intros Hnl Hs. cbn [take_named]. unfold take_concat. cbn [names] in Hnl. now rewrite Hnl, Hs. Qed.

Lemma take_named_invalid_image t lazy same req nl : is_concat t = false -> names t = Some nl -> ~ incl req nl ->
  take_named t lazy same OtherP req = Err KeyError.
Proof.
  intros Hi Hnl Hni.
  assert (Hs : spec_eqb same nl req = false).
  { destruct same; [|reflexivity]. cbn. apply Bool.not_true_iff_false. intros E. apply strs_eqb_eq in E. apply Hni. subst nl.
    intros x Hx; exact Hx. }
  assert (Hc : take_concat [t] (dsize t) same OtherP req = Err KeyError).
  { unfold take_concat. cbn [map concat_opt]. rewrite Hnl, app_nil_r, Hs. reflexivity. }
  destruct t as [l|ps d|s ys xs ci d nm nc|s M d al|s q d|s k d]; try discriminate;
    cbn [take_named]; rewrite Hnl, Hs, Bool.andb_false_r, (all_some_miss _ _ Hni); exact Hc.
Qed.

(** ** Names without repetition *)

Lemma oset_prefix l1 c l2 : NoDup (l1 ++ [c]) -> exists r, oset_of (l1 ++ c :: l2) = (l1 ++ c :: r)%list.
Proof.
  induction l1 as [|x l1 IH]; cbn [app]; intros H.
  - eexists. reflexivity.
  - inversion H as [|? ? Hx Hn]; subst. destruct (IH Hn) as (r & Hr). cbn [oset_of]. rewrite Hr, filter_app. cbn [filter].
    assert (Exc : String.eqb x c = false).
    { apply String.eqb_neq. intros ->. apply Hx. apply in_or_app. right. now left. }
    rewrite Exc. cbn. exists (filter (fun y => negb (String.eqb x y)) r). do 2 f_equal.
    assert (Hl : ~ In x l1) by (intros Hl; apply Hx, in_or_app; now left). clear -Hl.
    induction l1 as [|y l1 IH]; [reflexivity|]. cbn. destruct (String.eqb_spec x y) as [->|]; [exfalso; apply Hl; now left|].
    cbn. f_equal. apply IH. intros H; apply Hl; now right.
Qed.

Lemma position_app l1 c r : NoDup (l1 ++ [c]) -> position c (l1 ++ c :: r) = Some (Z.of_nat (List.length l1)).
Proof.
  induction l1 as [|x l1 IH]; cbn [app position]; intros H.
  - now rewrite String.eqb_refl.
  - inversion H as [|? ? Hx Hn]; subst. destruct (String.eqb_spec c x) as [->|].
    + exfalso. apply Hx. apply in_or_app. right. now left.
    + rewrite (IH Hn). cbn [option_map List.length]. f_equal. lia.
Qed.

Lemma position_first l1 c l2 : NoDup (l1 ++ [c]) -> position c (oset_of (l1 ++ c :: l2)) = Some (Z.of_nat (List.length l1)).
Proof. intros H. destruct (oset_prefix l1 c l2 H) as (r & ->). now apply position_app. Qed.
