(* Finalized arrays of channel selections. *)
From Verif Require Import Py PyProofs GeomModel GeomProofs GraphModel GraphSpec GraphBase GraphTake GraphSize GraphTotal FinalModel FinalSpec FinalProofs TakeModel TakeSpec.
From Coq Require Import ZifyBool.
Local Open Scope Z_scope.

(** ** [finalize] is a finalizer *)

Lemma finalize_finalizer {V} (W : world V) : finalizer W (finalize W).
Proof.
  split; intros; try reflexivity.
  - cbn [finalize]. now rewrite mapR_map.
  - cbn [finalize] in H. apply bind_ok in H as (b & Hb & H). exists b. split; [exact Hb|].
    destruct (al_nearest al); [|discriminate]. unfold nearest_array in H.
    destruct (negb (axis_aligned M)); [discriminate|].
    destruct (Qeq_bool (b1 M) 0 && Qeq_bool (b2 M) 0)%bool.
    + destruct ((fst d <=? 0) || (snd d <=? 0))%bool; [discriminate|]. injection H as <-.
      unfold atleast3. destruct (a_c b) as [n|] eqn:E; cbn; rewrite ?E; auto.
    + apply bind_ok in H as (p & _ & H). injection H as <-.
      unfold atleast3. destruct (a_c b) as [n|] eqn:E; cbn; rewrite ?E; auto.
  - discriminate.
Qed.

Section Bands.
Context {V : Type} (W : world V) (F : node -> result (array V)) (HF : finalizer W F).

Definition band := Z -> Z -> V.

(* an array of width w and height h with the bands bs *)
Definition has (a : array V) (w h : Z) (bs : list band) : Prop :=
  a_w a = w /\ a_h a = h /\ a_c a = Some (Z.of_nat (List.length bs)) /\
  forall k b r c, nth_error bs k = Some b -> 0 <= r < h -> 0 <= c < w -> a_pix a r c (Z.of_nat k) = b r c.

Definition bands_of (a : array V) (n : Z) : list band :=
  map (fun k r c => a_pix a r c k) (zseq (Z.to_nat n)).

Lemma has_self a n : a_c a = Some n -> 0 <= n -> has a (a_w a) (a_h a) (bands_of a n).
Proof.
  intros Hc Hn. split; [reflexivity|]. split; [reflexivity|]. unfold bands_of. split.
  - rewrite map_length, zseq_length, Z2Nat.id by lia. exact Hc.
  - intros k b r c Hk _ _. rewrite nth_error_map in Hk.
    destruct (nth_error (zseq (Z.to_nat n)) k) as [j|] eqn:E; [|discriminate]. injection Hk as <-.
    apply zseq_nth in E. now subst j.
Qed.

Lemma has_c3 a w h bs : has a w h bs -> atleast3 a = a.
Proof. intros (_ & _ & Hc & _). unfold atleast3. now rewrite Hc. Qed.

Lemma has_cat a l w h bs bss : has a w h bs -> Forall2 (fun x b => has x w h b) l bss ->
  exists x, cat_all a l = Ok x /\ has x w h (bs ++ List.concat bss).
Proof.
  revert a bs bss. induction l as [|b l IH]; intros a bs bss Ha Hl; inversion Hl; subst.
  - exists a. cbn. rewrite app_nil_r. auto.
  - match goal with H : has b w h ?y |- _ => rename y into bb; rename H into Hb end.
    destruct (IH b bb l' Hb) as (x & Hx & H); [assumption|]. cbn [cat_all]. rewrite Hx. cbn [bind].
    destruct Ha as (Aw & Ah & Ac & Ap). destruct H as (Xw & Xh & Xc & Xp). unfold cat2. rewrite Ac, Xc.
    destruct ((a_h a =? a_h x) && (a_w a =? a_w x))%bool eqn:E; [|lia].
    eexists. split; [reflexivity|]. cbn [List.concat]. split; [exact Aw|]. split; [exact Ah|]. cbn [a_c a_pix].
    split; [f_equal; rewrite (app_length bs); lia|].
    intros k bd r c Hk Hr Hc. destruct (Z.of_nat k <? Z.of_nat (List.length bs)) eqn:Ek.
    + apply Ap; [|lia|lia]. now rewrite nth_error_app1 in Hk by lia.
    + rewrite nth_error_app2 in Hk by lia.
      replace (Z.of_nat k - Z.of_nat (List.length bs)) with (Z.of_nat (k - List.length bs)) by lia. auto.
Qed.

Lemma has_stack l w h bss : l <> [] -> Forall2 (fun x b => has x w h b) l bss ->
  exists x, stack_bands l = Ok x /\ has x w h (List.concat bss).
Proof.
  intros Hne Hl. destruct Hl as [|a bs l bss Ha Hl]; [congruence|].
  assert (E : map atleast3 l = l).
  { clear -Hl. induction Hl as [|x b l bss Hx Hl IH]; cbn; [reflexivity|]. now rewrite (has_c3 _ _ _ _ Hx), IH. }
  destruct (has_cat _ _ _ _ _ _ Ha Hl) as (x & Hx & H). exists x. split; [|exact H].
  unfold stack_bands. destruct l as [|b l]; [cbn in Hx; exact Hx|]. now rewrite E, (has_c3 _ _ _ _ Ha).
Qed.

(** ** The finalized array has the shape the metadata says *)

Definition shaped (t : node) (a : array V) : Prop :=
  dsize t = Some (a_w a, a_h a) /\ exists n, num_channels t = Some n /\ a_c a = Some n /\ 0 <= n.

Lemma shaped_c3 t a : shaped t a -> atleast3 a = a.
Proof. intros (_ & n & _ & Hc & _). unfold atleast3. now rewrite Hc. Qed.

Lemma F_shaped t : forall a, wf t -> tight t -> all_3d W t -> F t = Ok a -> shaped t a.
Proof.
  induction t as [l|ps d IH|s ys xs ci d nm nc IH|s M d al IH|s q d IH|s k d IH] using node_ind';
    intros a Hw Ht H3 Ha.
  - rewrite (f_leaf _ _ HF) in Ha. unfold finalize_leaf in Ha. destruct Hw as ((n & Hn & Hn0 & _) & _).
    rewrite Hn in Ha. unfold shaped. cbn [dsize num_channels]. destruct (l_dsize l) as [w h].
    cbn in H3. destruct (l_kind l).
    + rewrite H3 in Ha. injection Ha as <-. cbn. eauto 10.
    + injection Ha as <-. cbn. eauto 10.
  - rewrite (f_concat _ _ HF) in Ha. apply bind_ok in Ha as (l & Hl & Ha). apply mapR_Forall2 in Hl.
    pose proof (tight_dsize _ Ht) as (w & h & Hd & _). cbn [dsize] in Hd. subst d.
    apply wf_concat in Hw as (Hw & _). apply tight_concat in Ht as (Hne & Ht & Hds). apply (leafs_concat _ ps (Some (w,h))) in H3.
    assert (G : exists bss, Forall2 (fun x b => has x w h b) l bss /\
                 sum_opt (map num_channels ps) = Some (Z.of_nat (List.length (List.concat bss)))).
    { clear Ha Hne. induction Hl as [|p x ps l Hp Hl IHl].
      - exists []. split; [constructor|reflexivity].
      - inversion IH; inversion Hw; inversion Ht; inversion Hds; inversion H3; subst.
        destruct IHl as (bss & Hb & Hs); [assumption..|].
        assert (Hsh : shaped p x) by auto. destruct Hsh as (Hd & n & Hn & Hc & Hn0).
        assert (a_w x = w /\ a_h x = h) as [Ew Eh] by (split; congruence).
        exists (bands_of x n :: bss). split.
        + constructor; [|exact Hb]. rewrite <- Ew, <- Eh. now apply has_self.
        + cbn. rewrite Hn, Hs, app_length. unfold bands_of. rewrite map_length, zseq_length. f_equal. lia. }
    destruct G as (bss & Hb & Hs).
    assert (l <> []) by (intros ->; inversion Hl; congruence).
    destruct (has_stack _ _ _ _ H Hb) as (x & Hx & (Xw & Xh & Xc & _)). rewrite Ha in Hx. injection Hx as ->.
    split; [cbn; congruence|]. cbn [num_channels]. rewrite Hs, Xc. eexists. split; [reflexivity|]. split; [reflexivity|]. lia.
  - rewrite (f_crop _ _ HF) in Ha. apply bind_ok in Ha as (b & Hb & Ha).
    destruct (IH b) as (Hd & n & Hn & Hc & Hn0); [apply Hw|apply Ht|exact H3|exact Hb|].
    pose proof (wf_crop_ci _ _ _ _ _ _ _ Hw) as Hin. pose proof (crop_nc _ _ _ _ _ _ _ Hw) as Hnc.
    destruct Ht as (_ & _ & -> & w & h & Hd' & B1 & B2 & B3 & B4). rewrite Hd in Hd'. injection Hd' as <- <-.
    unfold index_array in Ha. rewrite !axis_slice_in in Ha by lia. split.
    + destruct ci as [l|]; [rewrite Hc in Ha; destruct (mapR (np_index n) l); [|discriminate]|];
        cbn in Ha; injection Ha as <-; unfold atleast3; cbn; rewrite ?Hc; reflexivity.
    + rewrite Hnc. destruct ci as [l|].
      * rewrite Hc in Ha. assert (Hl : Forall (fun i => 0 <= i < n) l) by (apply Hin; exact Hn).
        rewrite (mapR_np_index _ _ Hl) in Ha. cbn in Ha. injection Ha as <-. cbn. eexists. split; [reflexivity|]. split; [reflexivity|]. lia.
      * cbn in Ha. injection Ha as <-. unfold atleast3. cbn. rewrite Hc. cbn. eauto.
  - destruct (f_warp _ _ HF _ _ _ _ _ Ha) as (b & Hb & Aw & Ah & Ac).
    destruct (IH b) as (_ & n & Hn & Hc & Hn0); [apply Hw|apply Ht|exact H3|exact Hb|].
    split; [cbn; rewrite Aw, Ah; now destruct d|]. exists n. cbn. rewrite Ac. unfold atleast3. rewrite Hc. cbn. auto.
  - rewrite (f_dequant _ _ HF) in Ha. destruct (F s) as [b|] eqn:Hb; [|discriminate]. cbn in Ha. injection Ha as <-.
    pose proof (IH b Hw (proj1 Ht) H3 eq_refl) as Hs. rewrite (shaped_c3 _ _ Hs). destruct Hs as (Hd & n & Hn & Hc & Hn0).
    destruct Ht as (_ & ->). split; [|exists n; cbn; split; [exact Hn|]; split; [|exact Hn0]; destruct q; exact Hc].
    cbn. rewrite Hd. destruct q; reflexivity.
  - destruct (f_overview _ _ HF _ _ _ _ Ha) as (Aw & Ah & Ac). destruct (wf_meta _ Hw) as (n & Hn & Hn0 & _).
    split; [cbn; rewrite Aw, Ah; now destruct d|]. exists n. cbn in Hn |- *. rewrite Ac, Hn. auto.
Qed.

(** ** Selecting bands by index *)

(* [a'] consists of the bands [idxs] of [a] *)
Definition picked (a : array V) (idxs : list Z) (a' : array V) : Prop :=
  has a' (a_w a) (a_h a) (map (fun b r c => a_pix a r c b) idxs).

Lemma crop_bands t a idxs m nl : wf t -> tight t -> all_3d W t -> F t = Ok a -> names t = Some nl ->
  num_channels t = Some m -> in_range m idxs ->
  exists t' a', mkCrop t None (Some idxs) = Ok t' /\ F t' = Ok a' /\ picked a idxs a'.
Proof.
  intros Hw Ht H3 Ha Hnm Hm Hr. destruct (tight_dsize _ Ht) as (w & h & Hd & Hw0 & Hh0).
  destruct (mkCrop_total t None (Some idxs) w h nl m Hw Ht Hd Hm) as (c & Hc);
    [intros l [= <-]; exact Hr|intros; discriminate|exact Hnm|].
  exists c. destruct (F_shaped _ _ Hw Ht H3 Ha) as (Hd' & n & Hn & Hcn & Hn0).
  assert (n = m) by congruence. subst n. rewrite Hd in Hd'. injection Hd' as -> ->.
  pose proof Hc as Hc'. apply mkCrop_shape in Hc' as (w' & h' & ys & xs & nm & nc & Hd'' & -> & -> & ->).
  rewrite Hd in Hd''. injection Hd'' as <- <-.
  rewrite (f_crop _ _ HF), Ha. cbn [bind]. unfold index_array. rewrite !axis_slice_in by (cbn; lia).
  rewrite Hcn, (mapR_np_index _ _ Hr). cbn [bind rmap fst snd]. eexists. split; [exact Hc|]. split; [reflexivity|].
  unfold picked, iv_len, has. cbn [atleast3 a_w a_h a_c a_pix fst snd]. rewrite map_length.
  split; [lia|]. split; [lia|]. split; [reflexivity|].
  intros k b r cc Hk Hrr Hcc. rewrite nth_error_map in Hk. destruct (nth_error idxs k) as [i|] eqn:E; [|discriminate].
  injection Hk as <-. rewrite Nat2Z.id, (nth_error_nth _ _ _ E). f_equal; lia.
Qed.

(* the band of a part, or NaN *)
Definition src_band (xs : list (array V)) (o : option (nat * Z)) : band :=
  match o with
  | Some (p, j) => match nth_error xs p with Some x => fun r c => a_pix x r c j | None => fun _ _ => w_nan W end
  | None => fun _ _ => w_nan W
  end.

(* unraveling a flat index finds the band in the concatenated list of bands *)
Lemma unravel_bands ps sizes (xs : list (array V)) w h bss i pos p j :
  known_all (map num_channels ps) = Some sizes ->
  Forall2 (fun q x => shaped q x) ps xs ->
  Forall2 (fun x b => has x w h b) xs bss ->
  unravel sizes i pos = Ok (p, j) ->
  exists x b, nth_error xs (p - pos) = Some x /\ (pos <= p)%nat /\ 0 <= i /\
    nth_error (List.concat bss) (Z.to_nat i) = Some b /\
    forall r c, 0 <= r < h -> 0 <= c < w -> a_pix x r c j = b r c.
Proof.
  revert sizes xs bss i pos. induction ps as [|q ps IH]; cbn; intros sizes xs bss i pos Hk Hs Hb Hu.
  - injection Hk as <-. discriminate.
  - destruct (num_channels q) as [n|] eqn:En; [|discriminate].
    destruct (known_all (map num_channels ps)) as [sz|] eqn:Ek; [|discriminate].
    injection Hk as <-. cbn in Hu. inversion Hs as [|? x ? xs' Hq Hs']; subst. inversion Hb as [|? bx ? bss' Hx Hb']; subst.
    destruct Hq as (_ & n' & Hn' & Hc & Hn0). assert (n' = n) by congruence. subst n'.
    destruct Hx as (Xw & Xh & Xc & Xp). assert (Hlen : Z.of_nat (List.length bx) = n) by congruence.
    destruct (i <? n)%Z eqn:Ei.
    + destruct (i <? 0) eqn:E0; [discriminate|]. injection Hu as <- <-. rewrite Nat.sub_diag. cbn.
      destruct (nth_error bx (Z.to_nat i)) as [b|] eqn:Eb; [|apply nth_error_None in Eb; lia].
      exists x, b. split; [reflexivity|]. split; [lia|]. split; [lia|].
      rewrite nth_error_app1 by (apply nth_error_Some; congruence). split; [exact Eb|].
      intros r c Hr Hcc. rewrite <- (Xp _ _ r c Eb Hr Hcc). f_equal. lia.
    + destruct (IH _ _ _ _ _ eq_refl Hs' Hb' Hu) as (x' & b & Hx' & Hle & Hi & Hb'' & Hp).
      exists x', b. replace (p - pos)%nat with (S (p - S pos))%nat by lia. cbn.
      split; [exact Hx'|]. split; [lia|]. split; [lia|]. split; [|exact Hp].
      rewrite nth_error_app2 by lia. rewrite <- Hb''. f_equal. lia.
Qed.

Lemma concat_parts ps d a : wf (Concat ps d) -> tight (Concat ps d) -> all_3d W (Concat ps d) ->
  F (Concat ps d) = Ok a ->
  exists xs bss, Forall2 (fun q x => F q = Ok x) ps xs /\ Forall2 (fun q x => shaped q x) ps xs /\
    Forall2 (fun x b => has x (a_w a) (a_h a) b) xs bss /\ has a (a_w a) (a_h a) (List.concat bss).
Proof.
  intros Hw Ht H3 Ha. pose proof (F_shaped _ _ Hw Ht H3 Ha) as (Hd & _). cbn in Hd. subst d.
  rewrite (f_concat _ _ HF) in Ha. apply bind_ok in Ha as (l & Hl & Ha). apply mapR_Forall2 in Hl.
  set (w := a_w a) in *. set (h := a_h a) in *.
  apply wf_concat in Hw as (Hw & _). apply tight_concat in Ht as (Hne & Ht & Hds). apply (leafs_concat _ ps (Some (w,h))) in H3.
  assert (G : exists bss, Forall2 (fun q x => shaped q x) ps l /\ Forall2 (fun x b => has x w h b) l bss).
  { clear Ha Hne. clearbody w h. induction Hl as [|p x ps l Hp Hl IHl]; [exists []; split; constructor|].
    inversion Hw; inversion Ht; inversion Hds; inversion H3; subst.
    destruct IHl as (bss & Hs & Hb); [assumption..|].
    assert (Hsh : shaped p x) by (apply F_shaped; assumption). pose proof Hsh as (Hd & n & Hn & Hc & Hn0).
    assert (a_w x = w /\ a_h x = h) as [Ew Eh] by (split; congruence).
    exists (bands_of x n :: bss). split; constructor; auto. rewrite <- Ew, <- Eh. now apply has_self. }
  destruct G as (bss & Hs & Hb). exists l, bss. split; [exact Hl|]. split; [exact Hs|]. split; [exact Hb|].
  assert (l <> []) by (intros ->; inversion Hl; congruence).
  destruct (has_stack _ _ _ _ H Hb) as (x & Hx & Hhx). rewrite Ha in Hx. now injection Hx as <-.
Qed.

Lemma zseq_picked x n : a_c x = Some n -> 0 <= n -> picked x (zseq (Z.to_nat n)) x.
Proof. intros Hc Hn. apply has_self; assumption. Qed.

Lemma Forall2_nth_r {A B} (R : A -> B -> Prop) l l' n b :
  Forall2 R l l' -> nth_error l' n = Some b -> exists a, nth_error l n = Some a /\ R a b.
Proof.
  intros G. revert n. induction G; intros [|n]; cbn; try discriminate.
  - intros [= ->]. eauto.
  - apply IHG.
Qed.

Lemma take_bands t : forall a idxs m nl, wf t -> tight t -> all_3d W t -> F t = Ok a -> names t = Some nl ->
  num_channels t = Some m -> in_range m idxs -> idxs <> [] ->
  exists t' a', take_idx t idxs = Ok t' /\ F t' = Ok a' /\ picked a idxs a'.
Proof.
  induction t as [l|ps d IH|s ys xs ci d nm nc IH|s M d al IH|s q d IH|s k d IH] using node_ind';
    intros a idxs m nl Hw Ht H3 Ha Hnl Hm Hr Hi; try (eapply crop_bands; eassumption).
  cbn [names] in Hnl. cbn [num_channels] in Hm. apply sum_opt_known in Hm as (sizes & Ek & ->).
  pose proof (F_shaped _ _ Hw Ht H3 Ha) as Hsh. pose proof Hsh as (Hd & _). cbn [dsize] in Hd.
  destruct (concat_parts _ _ _ Hw Ht H3 Ha) as (xs & bss & Fx & Fs & Fb & Hhas).
  apply wf_concat in Hw as (Hw & Hds & _). apply tight_concat in Ht as (Hne & Ht & _). apply (leafs_concat _ ps d) in H3.
  assert (Hmeta : Forall meta_ok ps) by (eapply Forall_impl; [|exact Hw]; intros; now apply wf_meta).
  destruct (mapR_total (fun i => unravel sizes i 0) idxs) as (wh & Hwh).
  { intros i Hin. unfold in_range in Hr. rewrite Forall_forall in Hr.
    destruct (unravel_total ps sizes Ek Hmeta i 0%nat (Hr i Hin)) as (p & j & E). eauto. }
  pose proof Hwh as Hwh2. apply mapR_Forall2 in Hwh2.
  assert (Hvalid : forall p j, In (p, j) wh -> exists q n, nth_error ps p = Some q /\
            num_channels q = Some n /\ 0 <= j < n).
  { intros p j Hin. clear -Hwh2 Ek Hin. induction Hwh2 as [|i pj idxs wh Hi F0 IH]; [contradiction|].
    destruct Hin as [->|Hin]; [|auto].
    destruct (unravel_spec (fun _ _ => True) _ _ _ _ _ _ Ek Hi) as (q & n & _ & Hn & Hq & Hj & _).
    rewrite Nat.sub_0_r in Hn. eauto. }
  set (sub := sub_component (map (fun p => (p, take_idx p)) ps)).
  assert (Hseg : forall seg, In seg (segments wh) -> exists comp y, sub seg = Ok comp /\ F comp = Ok y /\
            has y (a_w a) (a_h a) (map (fun j => src_band xs (Some (fst seg, j))) (snd seg)) /\ dsize comp = d).
  { intros [p is] Hin. pose proof (segments_nonempty wh) as Hsn. rewrite Forall_forall in Hsn.
    pose proof (Hsn _ Hin) as Hisne. cbn in Hisne.
    assert (Hall : forall j, In j is -> In (p, j) wh).
    { intros j Hj. rewrite <- (segments_flat wh). apply in_flat_map. exists (p, is). split; [exact Hin|]. cbn. now apply in_map. }
    assert (Hq : exists q n, nth_error ps p = Some q /\ num_channels q = Some n /\ in_range n is).
    { destruct is as [|j0 is]; [congruence|].
      destruct (Hvalid p j0 (Hall j0 (or_introl eq_refl))) as (q & n & Hq & Hqn & _).
      exists q, n. split; [exact Hq|]. split; [exact Hqn|]. apply Forall_forall. intros j Hj.
      destruct (Hvalid p j (Hall j Hj)) as (q' & n' & Hq' & Hn' & Hjj). assert (q' = q) by congruence. subst. congruence. }
    destruct Hq as (q & n & Hq & Hqn & Hrange). pose proof (nth_error_In _ _ Hq) as Hqin.
    destruct (Forall2_nth_l _ _ _ _ _ Fx Hq) as (x & Hx & HFx).
    destruct (Forall2_nth_l _ _ _ _ _ Fs Hq) as (x' & Hx' & Hsx). assert (x' = x) by congruence. subst x'.
    destruct (Forall2_nth_l _ _ _ _ _ Fb Hx) as (bx & _ & (Xw & Xh & _)).
    rewrite Forall_forall in IH, Hw, Ht, Hds, H3.
    unfold sub, sub_component, nth_result. cbn [fst snd]. rewrite nth_error_map, Hq. cbn [option_map bind]. rewrite Hqn.
    assert (Emap : map (fun j => src_band xs (Some (p, j))) is = map (fun b r c => a_pix x r c b) is).
    { apply map_ext. intros j. cbn. now rewrite Hx. }
    rewrite Emap, <- Xw, <- Xh.
    destruct (list_Z_eqb is (zseq (Z.to_nat n))) eqn:E.
    - apply list_Z_eqb_eq in E. exists q, x. split; [reflexivity|]. split; [exact HFx|]. split; [|apply Hds, Hqin].
      destruct Hsx as (_ & n' & Hn' & Hc & Hn0). assert (n' = n) by congruence. subst n' is.
      now apply zseq_picked.
    - assert (Hnq : exists nq, names q = Some nq).
      { destruct (names q) as [nq|] eqn:Enq; [eauto|]. exfalso.
        eapply (concat_opt_known _ _ Hnl (names q)); [now apply in_map|exact Enq]. }
      destruct Hnq as (nq & Hnq).
      destruct (IH q Hqin x is n nq) as (t' & y & H1 & H2 & H4); auto.
      { apply H3. exact Hqin. }
      exists t', y. split; [exact H1|]. split; [exact H2|]. split; [exact H4|].
      destruct (take_idx_takes _ _ _ _ (Hw q Hqin) Hqn Hrange H1) as (_ & _ & _ & _ & T5 & _).
      rewrite T5 by exact Hisne. apply Hds, Hqin. }
  assert (Hlists : exists comps ys, mapR sub (segments wh) = Ok comps /\ mapR F comps = Ok ys /\
            Forall2 (fun y bs => has y (a_w a) (a_h a) bs) ys
              (map (fun seg => map (fun j => src_band xs (Some (fst seg, j))) (snd seg)) (segments wh)) /\
            Forall (fun c => dsize c = d) comps).
  { clear -Hseg. induction (segments wh) as [|seg segs IHs].
    - exists [], []. cbn. auto 10.
    - destruct (Hseg seg (or_introl eq_refl)) as (comp & y & H1 & H2 & H4 & H5).
      destruct IHs as (comps & ys & G1 & G2 & G3 & G4); [intros; apply Hseg; now right|].
      exists (comp :: comps), (y :: ys). cbn. rewrite H1. cbn. rewrite G1. cbn. rewrite H2. cbn. rewrite G2. cbn. auto. }
  destruct Hlists as (comps & ys & G1 & G2 & G3 & G4).
  assert (Hcne : ys <> []).
  { intros ->. apply mapR_length in G1. apply mapR_length in G2. apply mapR_length in Hwh. pose proof (segments_flat wh) as Hf.
    destruct comps; [|discriminate]. destruct (segments wh); [|discriminate]. cbn in Hf. subst wh. destruct idxs; [congruence|discriminate]. }
  destruct (mkConcat_total _ _ G4) as (t' & Ht'). destruct (has_stack _ _ _ _ Hcne G3) as (a' & Ha' & Hhas').
  exists t', a'. split; [|split].
  - change (match concat_opt (map names ps), known_all (map num_channels ps) with
          | None, _ => Err AssertionError
          | _, None => Err TypeError
          | Some _, Some sizes =>
              wh <- mapR (fun i => unravel sizes i 0) idxs ;;
              comps <- mapR sub (segments wh) ;;
              match mkConcat comps with Some c => Ok c | None => Err ValueError end
          end = Ok t').
    rewrite Hnl, Ek, Hwh. cbn [bind]. rewrite G1. cbn [bind]. now rewrite Ht'.
  - apply mkConcat_spec in Ht' as (d' & -> & _). rewrite (f_concat _ _ HF), G2. exact Ha'.
  - assert (Ecat : List.concat (map (fun seg => map (fun j => src_band xs (Some (fst seg, j))) (snd seg)) (segments wh))
                   = map (fun pj => src_band xs (Some pj)) wh).
    { rewrite <- (segments_flat wh) at 2. unfold flat. rewrite flat_map_concat_map, concat_map, map_map. f_equal.
      apply map_ext. intros seg. now rewrite map_map. }
    rewrite Ecat in Hhas'. destruct Hhas' as (Aw & Ah & Ac & Ap).
    split; [exact Aw|]. split; [exact Ah|]. split; [rewrite Ac, !map_length; now rewrite (mapR_length _ _ _ Hwh)|].
    intros k b r c Hk Hrr Hcc. rewrite nth_error_map in Hk. destruct (nth_error idxs k) as [i|] eqn:Ei; [|discriminate].
    injection Hk as <-. destruct (Forall2_nth_l _ _ _ _ _ Hwh2 Ei) as ([p j] & Hpj & Hu).
    destruct (unravel_bands _ _ _ _ _ _ _ _ _ _ Ek Fs Fb Hu) as (x & bd & Hx & _ & Hi0 & Hbd & Hpx).
    rewrite Nat.sub_0_r in Hx.
    rewrite (Ap k (src_band xs (Some (p, j))) r c) by (try assumption; now rewrite nth_error_map, Hpj).
    cbn [src_band]. rewrite Hx, Hpx by assumption.
    destruct Hhas as (_ & _ & _ & Hp). rewrite <- (Hp _ _ r c Hbd Hrr Hcc). f_equal. lia.
Qed.

(** ** Selecting bands by name *)

Definition unrun (r : band_run) : list (option (nat * Z) * string) :=
  map (fun v => (option_map (fun p => (p, fst v)) (fst r), snd v)) (snd r).

Lemma key_eqb_eq a b : key_eqb a b = true -> a = b.
Proof. destruct a, b; cbn; try discriminate; auto. intros H. apply Nat.eqb_eq in H. now subst. Qed.

Lemma runs_flat l : flat_map unrun (runs l) = l.
Proof.
  induction l as [|[w c] l IH]; [reflexivity|]. cbn [runs].
  assert (E : (option_map (fun p => (p, match w with Some (_, j) => j | None => 0 end)) (option_map fst w), c) = (w, c)).
  { destruct w as [[p j]|]; reflexivity. }
  destruct (runs l) as [|[k vs] rest] eqn:El.
  - cbn in IH. subst l. cbn. now rewrite E.
  - destruct (key_eqb (option_map fst w) k) eqn:Ek.
    + apply key_eqb_eq in Ek. subst k. cbn in *. unfold unrun in *. cbn in *. now rewrite E, IH.
    + cbn in *. unfold unrun in *. cbn in *. now rewrite E, IH.
Qed.

Lemma runs_nonempty l : Forall (fun r => snd r <> []) (runs l).
Proof.
  induction l as [|[w c] l IH]; cbn [runs]; [constructor|].
  destruct (runs l) as [|[k vs] rest] eqn:El.
  - repeat constructor. discriminate.
  - destruct (key_eqb _ k); inversion IH; subst; repeat (constructor; try assumption; try discriminate).
Qed.

Lemma position_spec c l i : position c l = Some i ->
  0 <= i < Z.of_nat (List.length l) /\ nth_error l (Z.to_nat i) = Some c.
Proof.
  revert i. induction l as [|x l IH]; cbn [position]; intros i; [discriminate|]. destruct (String.eqb c x) eqn:E.
  - intros [= <-]. apply String.eqb_eq in E. subst. cbn. split; [lia|reflexivity].
  - destruct (position c l) as [j|]; [|discriminate]. cbn. intros [= <-]. destruct (IH j eq_refl) as [H1 H2].
    split; [lia|]. rewrite Z2Nat.inj_succ by lia. exact H2.
Qed.

Lemma position_none c l : position c l = None <-> ~ In c l.
Proof.
  induction l as [|x l IH]; cbn [position]; [tauto|]. destruct (String.eqb c x) eqn:E.
  - apply String.eqb_eq in E. subst. split; [discriminate|]. intros H. exfalso. apply H. now left.
  - destruct (position c l); cbn; split; try discriminate; intros H.
    + exfalso. apply H. right. destruct IH as [_ IH]. destruct (in_dec string_dec c l); [assumption|]. now discriminate IH.
    + apply String.eqb_neq in E. intros [->|G]; [congruence|]. now apply IH in G.
    + reflexivity.
Qed.

Lemma position_nth c l i : NoDup l -> nth_error l i = Some c -> position c l = Some (Z.of_nat i).
Proof.
  intros Hnd. revert i. induction Hnd as [|x l Hx Hnd IH]; intros i; [destruct i; discriminate|].
  destruct i as [|i]; cbn [nth_error position].
  - intros [= ->]. now rewrite String.eqb_refl.
  - intros H. destruct (String.eqb c x) eqn:E.
    + apply String.eqb_eq in E. subst. exfalso. apply Hx. eapply nth_error_In; exact H.
    + rewrite (IH _ H). cbn. f_equal. lia.
Qed.

Lemma filter_len {A} (f : A -> bool) l : (List.length (filter f l) <= List.length l)%nat.
Proof. induction l as [|a l IH]; cbn; [lia|]. destruct (f a); cbn; lia. Qed.

Lemma oset_len l : (List.length (oset_of l) <= List.length l)%nat.
Proof.
  induction l as [|x l IH]; cbn; [lia|].
  pose proof (filter_len (fun y => negb (String.eqb x y)) (oset_of l)). lia.
Qed.

Lemma strs_eqb_eq a b : strs_eqb a b = true -> a = b.
Proof.
  revert b; induction a as [|x a IH]; intros [|y b]; cbn; try discriminate; auto.
  intros H. apply andb_prop in H as [H1 H2]. apply String.eqb_eq in H1. f_equal; auto.
Qed.

(* the band of [a] a code stands for *)
Definition code_band (a : array V) (nl : list string) (c : string) : band :=
  match position c (oset_of nl) with
  | Some b => fun r cc => a_pix a r cc b
  | None => fun _ _ => w_nan W
  end.

Definition policy_ok (p : policy) (nl req : list string) : Prop :=
  match p with ReturnNan => True | ErrorP => incl req nl | OtherP => False end.

Lemma Forall2_same_imp {A B} (P : A -> B -> Prop) l l' : Forall2 P l l' ->
  forall (Q : A -> B -> Prop), (forall a b, P a b -> Q a b) -> Forall2 Q l l'.
Proof. induction 1; constructor; auto. Qed.

(* the part that serves a request *)
Definition el_name (ps : list node) (el : option (nat * Z) * string) (s : string) : Prop :=
  match fst el with
  | Some (p, j) => exists q lq, nth_error ps p = Some q /\ names q = Some lq /\ nth_error lq (Z.to_nat j) = Some s
  | None => s = snd el
  end.

Lemma take_concat_bands ps d a same p req nl :
  wf (Concat ps d) -> tight (Concat ps d) -> all_3d W (Concat ps d) -> F (Concat ps d) = Ok a ->
  concat_opt (map names ps) = Some nl -> req <> [] -> spec_eqb same nl req = false -> policy_ok p nl req ->
  exists t' a', take_concat ps d same p req = Ok t' /\ F t' = Ok a' /\
    has a' (a_w a) (a_h a) (map (code_band a nl) req) /\ dsize t' = d /\
    num_channels t' = Some (Z.of_nat (List.length req)) /\
    names t' = Some (map (fun c => match position c (oset_of nl) with
                                   | Some i => nth (Z.to_nat i) nl EmptyString | None => c end) req).
Proof.
  intros Hw Ht H3 Ha Hnl Hreq Hsame Hpol.
  destruct (wf_meta _ Hw) as (m & Hm & Hm0 & Hlen). cbn [names] in Hlen. specialize (Hlen _ Hnl).
  cbn [num_channels] in Hm. apply sum_opt_known in Hm as (sizes & Ek & Em).
  pose proof (F_shaped _ _ Hw Ht H3 Ha) as Hsh. pose proof Hsh as (Hd & _). cbn [dsize] in Hd.
  destruct (concat_parts _ _ _ Hw Ht H3 Ha) as (xs & bss & Fx & Fs & Fb & Hhas).
  apply wf_concat in Hw as (Hw & Hds & _). apply tight_concat in Ht as (Hne & Ht & _). apply (leafs_concat _ ps d) in H3.
  assert (Hmeta : Forall meta_ok ps) by (eapply Forall_impl; [|exact Hw]; intros; now apply wf_meta).
  set (idx := code_indexes nl req).
  assert (Hidx : forall oc, In oc idx -> match fst oc with Some i => 0 <= i < m | None => True end).
  { intros oc Hin. apply in_map_iff in Hin as (c & <- & _). cbn [fst]. destruct (position c (oset_of nl)) as [i|] eqn:E; [|exact I].
    apply position_spec in E as [E _]. pose proof (oset_len nl). lia. }
  assert (Hpol' : match p with
             | ReturnNan => Ok tt
             | ErrorP => if forallb (fun oc : option Z * string => match fst oc with None => false | Some _ => true end) idx
                         then Ok tt else Err ValueError
             | OtherP => Err KeyError
             end = Ok tt).
  { destruct p; [reflexivity| |contradiction]. cbn in Hpol.
    destruct (forallb _ idx) eqn:E; [reflexivity|]. exfalso. apply Bool.not_true_iff_false in E. apply E.
    apply forallb_forall. intros oc Hin. apply in_map_iff in Hin as (c & <- & Hc). cbn [fst].
    destruct (position c (oset_of nl)) as [i|] eqn:Ec; [reflexivity|].
    apply position_none in Ec. exfalso. apply Ec. apply oset_of_In. now apply Hpol. }
  destruct (mapR_total (locate sizes) idx) as (wh & Hwh).
  { intros oc Hin. pose proof (Hidx oc Hin) as Hi. unfold locate. destruct (fst oc) as [i|]; [|eauto].
    destruct (unravel_total ps sizes Ek Hmeta i 0%nat) as (q & j & ->); [lia|]. cbn. eauto. }
  pose proof Hwh as Hwh2. apply mapR_Forall2 in Hwh2.
  assert (Hvalid : forall q j c, In (Some (q, j), c) wh -> exists t n, nth_error ps q = Some t /\
            num_channels t = Some n /\ 0 <= j < n).
  { intros q j c Hin. clear -Hwh2 Ek Hin. induction Hwh2 as [|oc el idx wh Hi F0 IH]; [contradiction|].
    destruct Hin as [->|Hin]; [|auto]. unfold locate in Hi. destruct (fst oc) as [i|]; [|discriminate].
    apply bind_ok in Hi as ([p' j'] & Hu & Hi). injection Hi as -> -> _.
    destruct (unravel_spec (fun _ _ => True) _ _ _ _ _ _ Ek Hu) as (t & n & _ & Hn & Hq & Hj & _).
    rewrite Nat.sub_0_r in Hn. eauto. }
  set (sub := run_component (map (fun q => (q, take_idx q)) ps) d).
  assert (Hrun : forall r, In r (runs wh) -> exists comp y l, sub r = Ok comp /\ F comp = Ok y /\
            has y (a_w a) (a_h a) (map (fun el => src_band xs (fst el)) (unrun r)) /\ dsize comp = d /\
            num_channels comp = Some (Z.of_nat (List.length (unrun r))) /\
            names comp = Some l /\ Forall2 (el_name ps) (unrun r) l).
  { intros [key vs] Hin. pose proof (runs_nonempty wh) as Hrn. rewrite Forall_forall in Hrn.
    pose proof (Hrn _ Hin) as Hvne. cbn in Hvne.
    assert (Hall : forall el, In el (unrun (key, vs)) -> In el wh).
    { intros el Hel. rewrite <- (runs_flat wh). apply in_flat_map. exists (key, vs). auto. }
    unfold sub, run_component. cbn [fst snd]. destruct key as [q|].
    - assert (Hq : exists t n, nth_error ps q = Some t /\ num_channels t = Some n /\ in_range n (map fst vs)).
      { destruct vs as [|v0 vs]; [congruence|].
        destruct (Hvalid q (fst v0) (snd v0)) as (t & n & Hq & Hqn & _).
        { apply Hall. left. reflexivity. }
        exists t, n. split; [exact Hq|]. split; [exact Hqn|]. apply Forall_forall. intros j Hj.
        apply in_map_iff in Hj as (v & <- & Hv).
        destruct (Hvalid q (fst v) (snd v)) as (t' & n' & Hq' & Hn' & Hjj).
        { apply Hall. unfold unrun. cbn [fst snd]. apply (in_map (fun v => (option_map (fun p0 => (p0, fst v)) (Some q), snd v))) in Hv. exact Hv. }
        assert (t' = t) by congruence. subst. congruence. }
      destruct Hq as (t & n & Hq & Hqn & Hrange). pose proof (nth_error_In _ _ Hq) as Hqin.
      destruct (Forall2_nth_l _ _ _ _ _ Fx Hq) as (x & Hx & HFx).
      destruct (Forall2_nth_l _ _ _ _ _ Fs Hq) as (x' & Hx' & Hsx). assert (x' = x) by congruence. subst x'.
      destruct (Forall2_nth_l _ _ _ _ _ Fb Hx) as (bx & _ & (Xw & Xh & _)).
      rewrite Forall_forall in Hw, Ht, Hds, H3, Hmeta.
      assert (Hnq : exists nq, names t = Some nq).
      { destruct (names t) as [nq|] eqn:Enq; [eauto|]. exfalso.
        eapply (concat_opt_known _ _ Hnl (names t)); [now apply in_map|exact Enq]. }
      destruct Hnq as (nq & Hnq).
      assert (Hjne : map fst vs <> []) by (destruct vs; [congruence|discriminate]).
      assert (G : exists comp y, sub_component (map (fun q0 => (q0, take_idx q0)) ps) (q, map fst vs) = Ok comp /\
                 F comp = Ok y /\ picked x (map fst vs) y /\ takes t (map fst vs) comp).
      { unfold sub_component, nth_result. cbn [fst snd]. rewrite nth_error_map, Hq. cbn [option_map bind]. rewrite Hqn.
        destruct (list_Z_eqb (map fst vs) (zseq (Z.to_nat n))) eqn:E.
        - apply list_Z_eqb_eq in E. exists t, x. split; [reflexivity|]. split; [exact HFx|]. rewrite E. split; [|apply takes_all; auto].
          destruct Hsx as (_ & n' & Hn' & Hc & Hn0). assert (n' = n) by congruence. subst n'. now apply zseq_picked.
        - destruct (take_bands t x (map fst vs) n nq) as (t' & y & H1 & H2 & H4); auto.
          { apply H3. exact Hqin. }
          exists t', y. split; [exact H1|]. split; [exact H2|]. split; [exact H4|]. eapply take_idx_takes; eauto. }
      destruct G as (comp & y & G1 & G2 & G3 & (_ & _ & T3 & T4 & T5 & _)).
      destruct (Hmeta t Hqin) as (m' & Hm' & _ & Hlq). specialize (Hlq _ Hnq). assert (Hlq' : Z.of_nat (List.length nq) = n) by congruence.
      destruct (select_total nq (map fst vs)) as (l & Hl); [now rewrite Hlq'|].
      exists comp, y, l. split; [exact G1|]. split; [exact G2|].
      unfold unrun. cbn [fst snd]. rewrite map_map, map_length. cbn [fst snd option_map].
      split; [|split; [|split; [|split]]].
      + unfold picked in G3. rewrite map_map in G3. rewrite Xw, Xh in G3.
        erewrite map_ext; [exact G3|]. intros v. cbn. now rewrite Hx.
      + rewrite T5 by exact Hjne. apply Hds, Hqin.
      + rewrite T4, map_length. reflexivity.
      + rewrite T3, Hnq. cbn. now rewrite Hl.
      + unfold select_names in Hl. apply select_spec in Hl; [|eapply Forall_impl; [|exact Hrange]; cbn; intros; lia].
        clear -Hl Hq Hnq. revert l Hl. induction vs as [|v vs IHv]; intros l Hl; inversion Hl; subst; cbn; constructor; auto.
        unfold el_name. cbn. eauto.
    - subst d. exists (Leaf (MkLeaf 0 Nans (a_w a, a_h a) (Some (map snd vs)) (Some (Z.of_nat (List.length vs))) None)).
      eexists. exists (map snd vs). split; [reflexivity|]. rewrite (f_leaf _ _ HF). unfold finalize_leaf. cbn [l_nc l_dsize l_kind].
      split; [reflexivity|]. unfold unrun. cbn [fst snd]. rewrite map_length.
      split; [|split; [|split; [|split]]]; try reflexivity.
      + split; [reflexivity|]. split; [reflexivity|]. cbn [a_c a_pix]. rewrite map_map, map_length. split; [reflexivity|].
        intros k b r c Hk _ _. rewrite nth_error_map in Hk. destruct (nth_error vs k); [|discriminate]. now injection Hk as <-.
      + clear. induction vs as [|v vs IHv]; cbn; constructor; auto. reflexivity. }
  assert (Hlists : exists comps ys l, mapR sub (runs wh) = Ok comps /\ mapR F comps = Ok ys /\
            Forall2 (fun y bs => has y (a_w a) (a_h a) bs) ys
              (map (fun r => map (fun el => src_band xs (fst el)) (unrun r)) (runs wh)) /\
            Forall (fun c => dsize c = d) comps /\
            sum_opt (map num_channels comps) = Some (Z.of_nat (List.length (flat_map unrun (runs wh)))) /\
            concat_opt (map names comps) = Some l /\ Forall2 (el_name ps) (flat_map unrun (runs wh)) l).
  { clear -Hrun. induction (runs wh) as [|r rs IHs].
    - exists [], [], []. cbn. auto 10.
    - destruct (Hrun r (or_introl eq_refl)) as (comp & y & l & H1 & H2 & H4 & H5 & H6 & H7 & H8).
      destruct IHs as (comps & ys & l' & G1 & G2 & G3 & G4 & G5 & G6 & G7); [intros; apply Hrun; now right|].
      exists (comp :: comps), (y :: ys), (l ++ l')%list. cbn [mapR map]. rewrite H1. cbn [bind]. rewrite G1. cbn [bind mapR].
      rewrite H2. cbn [bind]. rewrite G2. cbn [bind sum_opt concat_opt map flat_map]. rewrite H6, H7, G5, G6, app_length.
      split; [reflexivity|]. split; [reflexivity|]. split; [constructor; auto|]. split; [constructor; auto|].
      split; [f_equal; lia|]. split; [reflexivity|]. now apply Forall2_app. }
  destruct Hlists as (comps & ys & l & G1 & G2 & G3 & G4 & G5 & G6 & G7). rewrite runs_flat in G5, G7.
  pose proof (mapR_length _ _ _ Hwh) as Hlw. unfold idx, code_indexes in Hlw. rewrite map_length in Hlw.
  assert (Hyne : ys <> []).
  { intros ->. apply mapR_length in G1. apply mapR_length in G2. pose proof (runs_flat wh) as Hf.
    destruct comps; [|discriminate]. destruct (runs wh); [|discriminate]. cbn in Hf. subst wh. destruct req; [congruence|discriminate]. }
  destruct (mkConcat_total _ _ G4) as (t' & Ht'). destruct (has_stack _ _ _ _ Hyne G3) as (a' & Ha' & Hhas').
  exists t', a'.
  assert (Hcne : comps <> []) by (intros ->; apply Hyne; injection G2 as <-; reflexivity).
  pose proof Ht' as Hsp. apply mkConcat_spec in Hsp as (d' & -> & Hd' & _).
  split; [|split; [|split; [|split; [|split]]]].
  - unfold take_concat. rewrite Hnl, Hsame. fold idx. rewrite Hpol', Ek. cbn [bind]. rewrite Hwh. cbn [bind].
    fold sub. rewrite G1. cbn [bind]. now rewrite Ht'.
  - rewrite (f_concat _ _ HF), G2. exact Ha'.
  - assert (Ecat : List.concat (map (fun r => map (fun el => src_band xs (fst el)) (unrun r)) (runs wh))
                   = map (fun el => src_band xs (fst el)) wh).
    { rewrite <- (runs_flat wh) at 2. now rewrite flat_map_concat_map, concat_map, map_map. }
    rewrite Ecat in Hhas'. destruct Hhas' as (Aw & Ah & Ac & Ap).
    split; [exact Aw|]. split; [exact Ah|]. split; [rewrite Ac, !map_length; now rewrite Hlw|].
    intros k b r c Hk Hrr Hcc. rewrite nth_error_map in Hk. destruct (nth_error req k) as [cd|] eqn:Ec; [|discriminate].
    injection Hk as <-.
    assert (Eoc : nth_error idx k = Some (position cd (oset_of nl), cd)) by (unfold idx, code_indexes; now rewrite nth_error_map, Ec).
    destruct (Forall2_nth_l _ _ _ _ _ Hwh2 Eoc) as (el & Hel & Hloc).
    rewrite (Ap k (src_band xs (fst el)) r c) by (try assumption; now rewrite nth_error_map, Hel).
    unfold locate in Hloc. cbn [fst snd] in Hloc. unfold code_band. destruct (position cd (oset_of nl)) as [i|].
    + apply bind_ok in Hloc as ([q j] & Hu & Hloc). injection Hloc as <-. cbn [fst].
      destruct (unravel_bands _ _ _ _ _ _ _ _ _ _ Ek Fs Fb Hu) as (x & bd & Hx & _ & Hi0 & Hbd & Hpx).
      rewrite Nat.sub_0_r in Hx. cbn [src_band]. rewrite Hx, Hpx by assumption.
      destruct Hhas as (_ & _ & _ & Hp). rewrite <- (Hp _ _ r c Hbd Hrr Hcc). f_equal. lia.
    + injection Hloc as <-. reflexivity.
  - cbn. destruct comps; [congruence|]. inversion G4; inversion Hd'; subst. congruence.
  - cbn [num_channels]. rewrite G5. now rewrite Hlw.
  - cbn [names]. rewrite G6. f_equal. clear -Hwh2 G7 Ek Hmeta Hnl. unfold idx, code_indexes in Hwh2.
    clear idx. revert wh l Hwh2 G7. induction req as [|c req IHr]; intros wh l Hwh2 G7; inversion Hwh2 as [|? el ? wh' Hloc F']; subst;
      inversion G7 as [|? s ? l' Hel G']; subst; [reflexivity|]. cbn [map]. f_equal; [|eapply IHr; eassumption].
    unfold locate in Hloc. cbn [fst snd] in Hloc. destruct (position c (oset_of nl)) as [i|].
    + apply bind_ok in Hloc as ([q j] & Hu & Hloc). injection Hloc as <-. cbn in Hel. destruct Hel as (t & lq & Hq & Hlq & Hs).
      destruct (unravel_spec (fun _ _ => True) _ _ _ _ _ _ Ek Hu) as (t' & n & _ & Hn & Hq' & Hj & _ & _ & Hm).
      rewrite Nat.sub_0_r in Hn. assert (t' = t) by congruence. subst t'.
      destruct (Hm Hmeta) as [_ Hl]. destruct (Hl _ Hnl) as (lq' & Hlq' & He).
      assert (lq' = lq) by congruence. subst lq'. rewrite Hs in He. symmetry. now apply nth_error_nth.
    + injection Hloc as <-. exact Hel.
Qed.

End Bands.
