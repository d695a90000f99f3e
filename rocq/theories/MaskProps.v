(* C97, exactly: which masks survive finalize(). *)
From Verif Require Import Py PyProofs GeomModel GeomProofs LazyModel LazySpec LazyProofs LazyProps.
From Verif Require Import GraphModel GraphSpec GraphBase GraphSize FinalModel FinalSpec FinalProofs GraphProps LoadModel LoadSpec LoadProofs LoadReads LoadOver LoadProps.
From Coq Require Import ZifyBool.
Local Open Scope Z_scope.

(* on the way from the image down to its data, channels of several parts are
   concatenated *)
Fixpoint concatenates (t : node) : bool :=
  match t with
  | Leaf _ => false
  | Concat [p] _ => concatenates p
  | Concat _ _ => true
  | Crop s _ _ _ _ _ _ | Warp s _ _ _ | Dequant s _ _ | Overview s _ _ => concatenates s
  end.

(* a dequantization is applied to channels that were concatenated before *)
Fixpoint late_dq (t : node) : bool :=
  match t with
  | Leaf _ => false
  | Concat ps _ => existsb late_dq ps
  | Dequant s _ _ => concatenates s || late_dq s
  | Crop s _ _ _ _ _ _ | Warp s _ _ _ | Overview s _ _ => late_dq s
  end.

(* padding is not masked, and either dequantization comes before concatenation or it
   treats the value below a mask like any other value *)
Definition fill_plain {V} (E : env V) : Prop := unmask (w_fill (e_world E)) = w_fill (e_world E).
Definition dq_plain {V} (E : env V) : Prop :=
  forall q v, unmask (w_dq (e_world E) q v) = w_dq (e_world E) q (unmask v).

Section Masks.
Context {V : Type} (E : env V).
Notation WM := (in_memory E).
Notation arr := (array (LazyModel.sample V)).

Definition drop (d : bool) (b : arr) : arr := if d then unmask_array b else b.

Lemma unmask_idem (v : LazyModel.sample V) : unmask (unmask v) = unmask v.
Proof. now destruct v. Qed.

Lemma drop_h d b : a_h (drop d b) = a_h b. Proof. now destruct d. Qed.
Lemma drop_w d b : a_w (drop d b) = a_w b. Proof. now destruct d. Qed.
Lemma drop_c d b : a_c (drop d b) = a_c b. Proof. now destruct d. Qed.
Lemma drop_atleast3 d b : drop d (atleast3 b) = atleast3 (drop d b).
Proof. destruct d; [|reflexivity]. unfold atleast3. cbn [drop unmask_array a_c]. destruct (a_c b) eqn:H; [reflexivity|]. unfold unmask_array. now cbn. Qed.

Lemma drop_same d (a b : arr) : same_array a b -> same_array (drop d a) (drop d b).
Proof. intros H. destruct d; [|exact H]. destruct H as (H1 & H2 & H3 & H4). repeat split; auto. cbn. intros. f_equal. now apply H4. Qed.

Lemma drop_drop d (b : arr) : same_array (unmask_array (drop d b)) (unmask_array b).
Proof. destruct d; [|apply same_refl]. repeat split. cbn. intros. apply unmask_idem. Qed.

Lemma drop_index d b ys xs ci : index_array (drop d b) ys xs ci = rmap (drop d) (index_array b ys xs ci).
Proof.
  destruct d; [|cbn [drop]; destruct (index_array b ys xs ci); reflexivity]. unfold index_array. cbn [drop unmask_array a_h a_w a_c a_pix].
  destruct (axis_slice (a_h b) ys), (axis_slice (a_w b) xs). destruct ci as [l|]; [|reflexivity].
  destruct (a_c b); [|reflexivity]. destruct (mapR _ l); reflexivity.
Qed.

Lemma drop_nearest d M sz (b : arr) : fill_plain E ->
  both same_array (nearest_array WM M sz (drop d b)) (rmap (drop d) (nearest_array WM M sz b)).
Proof.
  intros Hf. unfold fill_plain in Hf. destruct d; cbn [drop]; [|destruct (nearest_array WM M sz b); cbn; [apply same_refl|exact I]].
  unfold nearest_array. cbn [unmask_array a_h a_w a_c a_pix].
  destruct (negb (axis_aligned M)); [exact I|]. destruct (_ && _)%bool.
  - destruct (_ || _)%bool; [exact I|]. cbn [rmap both]. fold (drop true (atleast3 (Arr (snd sz) (fst sz) (a_c b)
      (fun r c k : Z => a_pix b (resize_src (a_h b) (snd sz) r) (resize_src (a_w b) (fst sz) c) k)))). rewrite drop_atleast3. apply same_refl.
  - unfold nearest_warp. destruct (_ && _)%bool; [destruct (_ && _)%bool; [|exact I]|]; cbn [bind rmap both].
    + rewrite drop_atleast3.
      apply same_atleast3. repeat split. cbn. intros. unfold nearest_pixel. cbn.
      destruct (nearest_src _ _ _ _); [|now rewrite Hf]. destruct (nearest_src _ _ _ _); [reflexivity|now rewrite Hf].
    + rewrite drop_atleast3.
      apply same_atleast3. repeat split. cbn. intros. now rewrite Hf.
Qed.

Lemma drop_dq d q (b : arr) : dq_plain E \/ d = false -> same_array (dq_array WM q (drop d b)) (drop d (dq_array WM q b)).
Proof.
  intros Hq. destruct d; [|apply same_refl]. destruct Hq as [Hq|Hq]; [|discriminate]. destruct q as [q|]; [|apply same_refl]. repeat split. cbn. intros. symmetry. apply Hq.
Qed.

(* arrays that agree below the masks *)
Definition alike (a b : arr) : Prop := same_array (unmask_array a) (unmask_array b).

Lemma alike_cat2 a a' b b' : alike a a' -> alike b b' -> both alike (cat2 a b) (cat2 a' b').
Proof.
  intros (H1 & H2 & H3 & H4) (G1 & G2 & G3 & G4). cbn [unmask_array a_h a_w a_c a_pix] in *. unfold cat2. rewrite <- H3, <- G3, <- H1, <- G1, <- H2, <- G2.
  destruct (a_c a) as [m|] eqn:Ea; [|exact I]. destruct (a_c b) as [n|] eqn:Eb; [|exact I].
  destruct ((a_h a =? a_h b) && (a_w a =? a_w b))%bool eqn:Es; [|exact I]. cbn. repeat split. cbn.
  intros r c k Hr Hc Hk. destruct (k <? m) eqn:Ek; [apply H4; lia|apply G4; lia].
Qed.

Lemma alike_cat_all l l' : Forall2 alike l l' -> forall a a', alike a a' -> both alike (cat_all a l) (cat_all a' l').
Proof.
  induction 1 as [|b b' l l' Hb F IH]; intros a a' Ha; cbn [cat_all]; [exact Ha|].
  eapply both_bind; [apply IH; exact Hb|]. intros x x' _ _ Hx. now apply alike_cat2.
Qed.

Lemma alike_stack l l' : List.length l <> 1%nat -> Forall2 (fun a b => alike (atleast3 a) (atleast3 b)) l l' ->
  both alike (stack_bands l) (stack_bands l').
Proof.
  intros N F. destruct F as [|a a' l l' Ha F]; [exact I|]. destruct F as [|b b' l l' Hb F]; [now destruct N|].
  cbn [stack_bands]. apply alike_cat_all; [|exact Ha]. cbn [map]. constructor; [exact Hb|].
  clear -F. induction F; cbn; constructor; auto.
Qed.

Definition relm (t : node) (f : final V) (b : arr) : Prop := rel E t f (drop (concatenates t) b).

Lemma relm_alike t f b : relm t f b -> exists a rs, force E f = Ok (a, rs) /\ alike (atleast3 a) (atleast3 b).
Proof.
  intros H. destruct (rel_force E _ _ _ H) as (a & rs & Ha & S). exists a, rs. split; [exact Ha|]. unfold alike.
  apply (drop_same true) in S. cbn [drop] in S. eapply same_trans; [exact S|]. rewrite <- drop_atleast3. apply drop_drop.
Qed.

Lemma force_all_alike (fs : list (final V * list read)) bs :
  Forall2 (fun f b => exists a rs, force E (fst f) = Ok (a, rs) /\ alike (atleast3 a) (atleast3 b)) fs bs ->
  exists l rs, force_all E fs = Ok (l, rs) /\ Forall2 (fun a b : arr => alike (atleast3 a) (atleast3 b)) l bs.
Proof.
  intros F. unfold force_all.
  assert (H : exists l, mapR (fun '(f, rs) => '(a, rs') <- force E f;; Ok (a, (rs ++ rs')%list)) fs = Ok l /\
                Forall2 (fun a b => alike (atleast3 (fst a)) (atleast3 b)) l bs).
  { induction F as [|[f rs] b fs bs (a & rs' & Hf & S) F IH]; [exists []; split; [reflexivity|constructor]|].
    destruct IH as (l & Hl & FS). cbn [fst] in Hf. cbn [mapR]. rewrite Hf. cbn [bind]. rewrite Hl. cbn [bind].
    eexists. split; [reflexivity|]. constructor; assumption. }
  destruct H as (l & -> & FS). cbn [bind]. eexists _, _. split; [reflexivity|]. clear -FS. induction FS; cbn; constructor; auto.
Qed.

Lemma masks_main t : fill_plain E -> wf t -> tight t -> no_overviews t -> files_ok E t -> nonempty t -> dq_plain E \/ late_dq t = false ->
  both (fun f b => relm t (fst f) b) (lfin E t) (finalize WM t).
Proof.
  intros Hmp. induction t as [l|ps d IH|s ys xs ci d nm nc IH|s M d al IH|s q d IH|s k d IH] using node_ind';
    intros Hw Ht Ho Hf Hn HL.
  - exact (lazy_main E (Leaf l) Hw Ht Ho Hf Hn (or_intror I)).
  - cbn [lfin finalize]. pose proof (nonempty_size _ Hn) as (w & h & Ed & Pw & Ph). cbn [dsize] in Ed. subst d.
    apply wf_concat in Hw as (Fw & _ & _). apply tight_concat in Ht as (Hne & Ft & Fd). apply nonempty_concat in Hn.
    unfold files_ok in Hf. rewrite leafs_concat in Hf. unfold no_overviews in Ho. cbn in Ho. rewrite forall_parts_Forall in Ho.
    assert (F : Forall2 (both (fun f b => exists p, In p ps /\ relm p (fst f) b)) (map (lfin E) ps) (map (finalize WM) ps)).
    { assert (G : forall p, In p ps -> both (fun f b => relm p (fst f) b) (lfin E p) (finalize WM p)).
      { rewrite Forall_forall in IH, Fw, Ft, Hn, Hf, Ho. intros p Hp. apply IH; [exact Hp|auto|auto|now apply Ho|now apply Hf|auto|].
        destruct HL as [HL|HL]; [now left|right]. cbn [late_dq] in HL. destruct (late_dq p) eqn:El; [|reflexivity].
        assert (X : existsb late_dq ps = true) by (apply existsb_exists; exists p; auto). congruence. }
      clear -G. assert (H : forall qs, incl qs ps -> Forall2 (both (fun f b => exists p, In p ps /\ relm p (fst f) b)) (map (lfin E) qs) (map (finalize WM) qs)).
      { induction qs as [|q qs IHq]; intros Hi; [constructor|]. constructor; [|apply IHq; intros x Hx; apply Hi; now right].
        eapply both_mono; [apply G; apply Hi; now left|]. intros a b _ _ R. exists q. split; [apply Hi; now left|exact R]. }
      apply H. apply incl_refl. }
    assert (F1 := both_mapR _ _ _ F).
    destruct (mapR (fun x => x) (map (lfin E) ps)) as [fs|e] eqn:Efs, (mapR (fun x => x) (map (finalize WM) ps)) as [bs|e'] eqn:Ebs;
      try contradiction; [|exact I].
    cbn [bind]. cbn [both] in F1.
    assert (Lfs : List.length fs = List.length ps). { apply mapR_id_inv in Efs. clear -Efs. induction Efs; cbn; auto. }
    destruct (Nat.eq_dec (List.length ps) 1) as [L1|L1].
    + destruct ps as [|p [|]]; try discriminate. destruct F1 as [|f b fs' bs' (p' & [<-|[]] & R) F2]; [discriminate|].
      destruct F2; [|discriminate]. cbn [stack_bands both]. unfold relm in *. cbn [concatenates]. destruct R as (R1 & R2 & R3 & R4).
      split; [|split; [exact R2|split; [exact R3|]]].
      * inversion Fd; subst. cbn [dsize]. congruence.
      * destruct (fst f) as [id s|a]; [|exact R4]. destruct R4 as (fl & m & Hs & Hfl & Hc & S). exists fl, m. split; [exact Hs|]. split; [exact Hfl|].
        split; [|exact S]. cbn [num_channels map sum_opt]. rewrite Hc. f_equal. lia.
    + assert (FF : Forall2 (fun f b => exists a rs, force E (fst f) = Ok (a, rs) /\ alike (atleast3 a) (atleast3 b)) fs bs).
      { clear -F1. induction F1 as [|f b fs bs (p & _ & R) F IH]; constructor; [eapply relm_alike; exact R|exact IH]. }
      destruct (force_all_alike fs bs FF) as (l & rs & Hl & FS).
      assert (Hcc : concatenates (Concat ps (Some (w, h))) = true).
      { destruct ps as [|? [|? ?]]; [congruence|cbn in L1; congruence|reflexivity]. }
      assert (Hg : both (fun f b => relm (Concat ps (Some (w, h))) (fst f) b)
                     ('(l, rs) <- force_all E fs;; a <- stack_bands l;; Ok (Dense (unmask_array a), rs)) (stack_bands bs));
        [|destruct fs as [|? [|? ?]]; [exact Hg|cbn in Lfs; congruence|exact Hg]].
      rewrite Hl. cbn [bind].
      assert (Ll : List.length l <> 1%nat). { apply Forall2_len in FS. apply Forall2_len in F1. congruence. }
      pose proof (alike_stack l bs Ll FS) as HS.
      destruct (stack_bands l) as [x|] eqn:Ex, (stack_bands bs) as [y|] eqn:Ey; try contradiction; [|exact I].
      cbn [bind both fst]. cbn [both] in HS.
      destruct F1 as [|f b fs' bs' (p & Hp & R) F1]; [destruct ps; [congruence|discriminate]|].
      destruct (stack_size _ _ _ _ eq_refl Ey) as (S1 & S2). destruct R as (R1 & R2 & R3 & _). rewrite drop_w, drop_h in R1. rewrite drop_w in R2. rewrite drop_h in R3.
      rewrite Forall_forall in Fd. rewrite (Fd p Hp) in R1.
      unfold relm. rewrite Hcc. unfold rel. rewrite drop_w, drop_h. cbn [dsize]. rewrite S1, S2. split; [exact R1|]. split; [exact R2|]. split; [exact R3|exact HS].
  - cbn [lfin finalize]. destruct Hw as (Hws & B1 & B2 & -> & Hci). pose proof Ht as (Hts & Hnci & _ & w & h & Hd & Bx & Bx' & By & By').
    destruct Hn as [(w' & h' & Ed & Pw & Ph) Hns]. cbn in Ed. injection Ed as <- <-.
    specialize (IH Hws Hts Ho Hf Hns HL).
    eapply both_bind; [exact IH|]. intros [f rs] b Ef Eb R. unfold relm in R |- *. cbn [concatenates]. set (dr := concatenates s) in *.
    destruct R as (R1 & R2 & R3 & R4). cbn [fst] in *.
    assert (Ei : rmap (fun a => drop dr (atleast3 a)) (index_array b ys xs ci) = rmap atleast3 (index_array (drop dr b) ys xs ci)).
    { rewrite drop_index. destruct (index_array b ys xs ci); cbn; [now rewrite drop_atleast3|reflexivity]. }
    enough (G : both (fun f0 b0 => rel E (Crop s ys xs ci (iv_len xs, iv_len ys) nm nc) (fst f0) b0)
        ('(a, rs') <- match f with Ref id r => fetch E id r (crop_index ys xs ci) | Dense a => a' <- index_array a ys xs ci;; Ok (a', []) end;;
         Ok (Dense (atleast3 a), (rs ++ rs')%list)) (rmap atleast3 (index_array (drop dr b) ys xs ci))).
    { rewrite <- Ei in G. destruct (index_array b ys xs ci); exact G. }
    revert R1 R2 R3 R4. generalize (drop dr b). clear b Eb Ei. intros b R1 R2 R3 R4.
    rewrite Hd in R1. injection R1 as -> ->.
    destruct f as [id s0|a].
    + destruct R4 as (fl & m & -> & Hfl & Hc & S). pose proof (file_ready E _ _ Hfl) as Hr.
      assert (Eh : g_h fl 0 = a_h b) by apply S. assert (Ew : g_w fl 0 = a_w b) by apply S.
      unfold iv_len in Pw, Ph. cbn [fst snd] in Pw, Ph.
      destruct (fetch_crop E id (open fl m None) ys xs ci Hr) as (a & x & Ha & Hx & Sa); cbn [l_file l_overview open]; try lia.
      { destruct ci as [l|]; [|exact I]. split; [congruence|]. destruct Hci as (_ & Hl & _). apply Hl. exact Hc. }
      rewrite Ha. cbn [bind]. cbn [l_file l_method l_overview open] in Hx.
      pose proof (same_index (content E fl m 0) b ys xs ci) as SI. rewrite Hx in SI.
      destruct Hfl as (? & ? & ? & ?). specialize (SI ltac:(cbn; lia) ltac:(cbn; lia) S).
      destruct (index_array b ys xs ci) as [x'|] eqn:Ex'; [|contradiction]. cbn [both] in SI. cbn [rmap both fst].
      destruct (index_array_size b ys xs ci x') as (Z1 & Z2); try lia; [exact Ex'|].
      unfold rel. cbn [dsize]. rewrite atleast3_h, atleast3_w, Z1, Z2. split; [reflexivity|]. unfold iv_len. split; [lia|]. split; [lia|].
      rewrite <- (atleast3_idem a). apply same_atleast3. eapply same_trans; [exact Sa|exact SI].
    + assert (Ph0 : 0 <= a_h a /\ 0 <= a_w a). { destruct R4 as (-> & -> & _). lia. }
      pose proof (same_index a b ys xs ci ltac:(lia) ltac:(lia) R4) as SI.
      destruct (index_array a ys xs ci) as [x|] eqn:Ex, (index_array b ys xs ci) as [x'|] eqn:Ex'; try contradiction; [|exact I].
      cbn [bind rmap both fst]. cbn [both] in SI.
      destruct (index_array_size b ys xs ci x') as (Z1 & Z2); try lia; [exact Ex'|].
      unfold rel. cbn [dsize]. rewrite atleast3_h, atleast3_w, Z1, Z2. split; [reflexivity|]. unfold iv_len in *. cbn [fst snd] in *. split; [lia|]. split; [lia|].
      now apply same_atleast3.
  - cbn [lfin finalize]. destruct Hw as (Hws & _). destruct Ht as (Hts & _). destruct Ho as (_ & Ho). destruct Hn as [(w & h & Ed & Pw & Ph) Hns].
    cbn in Ed. injection Ed as ->. specialize (IH Hws Hts Ho Hf Hns HL).
    eapply both_bind; [exact IH|]. intros [f rs] b Ef Eb R. unfold relm in R |- *. cbn [concatenates fst] in *. set (dr := concatenates s) in *.
    destruct (rel_force E _ _ _ R) as (a & rs' & Ha & Sa). rewrite Ha. cbn [bind]. destruct (al_nearest al); [|exact I].
    destruct R as (R1 & R2 & R3 & _).
    assert (Ph0 : a_h a = a_h (drop dr b) /\ a_w a = a_w (drop dr b)). { destruct Sa as (G1 & G2 & _). rewrite !atleast3_h in G1. rewrite !atleast3_w in G2. auto. }
    pose proof (same_nearest (e_world E) M (w, h) a (drop dr b) ltac:(lia) ltac:(lia) Sa) as SN.
    pose proof (drop_nearest dr M (w, h) b Hmp) as SD.
    assert (EW : nearest_array WM M (w, h) (drop dr b) = nearest_array (e_world E) M (w, h) (drop dr b)) by reflexivity. rewrite EW in SD.
    destruct (nearest_array (e_world E) M (w, h) a) as [x|], (nearest_array (e_world E) M (w, h) (drop dr b)) as [y|] eqn:Ey; try contradiction;
      destruct (nearest_array WM M (w, h) b) as [z|] eqn:Ez; try contradiction; [|exact I].
    cbn [bind both fst]. cbn [both rmap] in SN, SD. destruct (nearest_size _ _ _ _ _ Ez) as (Z1 & Z2). unfold rel. cbn [dsize]. rewrite drop_w, drop_h, Z1, Z2. cbn [fst snd].
    split; [reflexivity|]. split; [exact Pw|]. split; [exact Ph|]. eapply same_trans; [exact SN|exact SD].
  - cbn [lfin finalize]. destruct Ht as (Hts & Ed). destruct Hn as [_ Hns]. assert (HL1 : dq_plain E \/ late_dq s = false) by (destruct HL as [HL|HL]; [now left|right; cbn in HL; now apply orb_false_iff in HL]).
    assert (HL2 : dq_plain E \/ concatenates s = false) by (destruct HL as [HL|HL]; [now left|right; cbn in HL; now apply orb_false_iff in HL]).
    specialize (IH Hw Hts Ho Hf Hns HL1).
    destruct (lfin E s) as [[f rs]|], (finalize WM s) as [b|]; try contradiction; [|exact I]. cbn [bind rmap both fst] in *.
    unfold relm in IH |- *. cbn [concatenates] in *. set (dr := concatenates s) in *.
    destruct (rel_force E _ _ _ IH) as (a & rs' & Ha & Sa). rewrite Ha. cbn [bind both fst].
    destruct IH as (R1 & R2 & R3 & _). unfold rel. rewrite drop_w, drop_h in *. 
    assert (Z : a_h (dq_array WM q (atleast3 b)) = a_h b /\ a_w (dq_array WM q (atleast3 b)) = a_w b).
    { destruct q; cbn; now rewrite atleast3_h, atleast3_w. }
    destruct Z as (-> & ->). cbn [dsize]. rewrite Ed, R1. split; [reflexivity|]. split; [exact R2|]. split; [exact R3|].
    apply (same_dq (e_world E) q) in Sa. eapply same_trans; [exact Sa|]. rewrite <- drop_atleast3. apply (drop_dq dr q (atleast3 b) HL2).
  - contradiction.
Qed.
End Masks.

(* every sample is the one the arrays in memory give; below a concatenation of
   several parts all masks are gone, elsewhere all masks are kept *)
Theorem C97_exact {V} (E : env V) t :
  made t -> no_overviews t -> files_ok E t -> nonempty t -> fill_plain E -> dq_plain E \/ late_dq t = false ->
  match lfinalize E t, finalize (in_memory E) t with
  | Ok (a, _), Ok b => same_array (atleast3 a) (if concatenates t then unmask_array (atleast3 b) else atleast3 b)
  | Err _, Err _ => True
  | _, _ => False
  end.
Proof.
  intros Hm Ho Hf Hn Hp HL. destruct (made_ok _ Hm) as (Hw & Ht). pose proof (masks_main E t Hp Hw Ht Ho Hf Hn HL) as H. unfold lfinalize.
  destruct (lfin E t) as [[f rs]|], (finalize (in_memory E) t) as [b|]; try contradiction; [|exact I]. cbn [bind].
  destruct (rel_force E _ _ _ H) as (a & rs' & Ha & Sa). cbn [fst] in Ha. rewrite Ha. cbn [bind].
  rewrite <- drop_atleast3 in Sa. exact Sa.
Qed.
Print Assumptions C97_exact.

(* a crop of two concatenated files read with nodata_method='ma', one of them dequantized *)
Example C97_exact_case :
  let E := ex_env (Some "ma"%string) in
  let t := the (mkCrop (concat_of [mkDequant (file_img 1 ["a"; "b"]%string) (Some 1); file_img 2 ["c"; "d"]%string])
                  (Some ((Some 1, Some 3), (Some 2, Some 5))) None) in
  made t /\ no_overviews t /\ files_ok E t /\ nonempty t /\ fill_plain E /\ late_dq t = false /\ concatenates t = true /\
  rmap (fun ar => (a_pix (fst ar) 0 0 1, a_pix (fst ar) 0 0 0)) (lfinalize E t) = Ok (SVal 121, SVal 100120) /\
  rmap (fun b => (a_pix b 0 0 1, a_pix b 0 0 0)) (finalize (in_memory E) t) = Ok (SMask 121, SVal 100120).
Proof.
  cbn zeta. split; [|split; [cbn; auto|split; [cbn; unfold describes; cbn; repeat split; try lia; try (right; left; reflexivity); cbn; lia|
    split; [cbn; repeat split; eexists _, _; (split; [reflexivity|cbn; lia])|split; [reflexivity|]]]]].
  - apply (made_crop (concat_of [mkDequant (file_img 1 ["a"; "b"]%string) (Some 1); file_img 2 ["c"; "d"]%string]) (Some ((Some 1, Some 3), (Some 2, Some 5)))); [|vm_compute; reflexivity].
    assert (L : forall id nm, made (file_img id nm)) by (intros; apply made_img; lia).
    apply (made_concat [mkDequant (file_img 1 ["a"; "b"]%string) (Some 1); file_img 2 ["c"; "d"]%string]); [|discriminate|vm_compute; reflexivity].
    constructor; [apply (made_dequant _ _ (L 1 ["a"; "b"]%string))|]. constructor; [apply (L 2 ["c"; "d"]%string)|constructor].
  - repeat split; vm_compute; reflexivity.
Qed.

(* without its last hypothesis C97_exact fails: dequantizing after concatenation changes
   the numbers that were masked, dequantizing before it does not *)
Example C97_late_case :
  let E := ex_env (Some "ma"%string) in
  let t := mkDequant (concat_of [file_img 1 ["a"; "b"]%string; file_img 2 ["c"; "d"]%string]) (Some 1) in
  late_dq t = true /\
  rmap (fun ar => a_pix (fst ar) 1 2 1) (lfinalize E t) = Ok (SVal 100121) /\
  rmap (fun b => a_pix b 1 2 1) (finalize (in_memory E) t) = Ok (SMask 121).
Proof. cbn zeta. repeat split; vm_compute; reflexivity. Qed.
