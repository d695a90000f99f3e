(* Exact forms of properties that the code meets only in part: what it does in
   the remaining cases.  Vocabulary: ChanSpec.v, TakeSpec.v. *)
From Verif Require GeomProofs ChanModel ChanSpec ChanProofs ChanStreamProofs.
From Verif Require Import Py PyProofs GeomModel GraphModel GraphSpec GraphBase GraphSize GraphTotal FinalModel FinalSpec FinalProofs GraphProps TakeModel TakeSpec TakeProofs CropProofs NamedProofs TakeProps.
From Coq Require Import ZifyBool.
Local Open Scope Z_scope.

(** * C38 *)

Lemma oset_app a b : oset_of (a ++ b) =
  (oset_of a ++ filter (fun y => if in_dec string_dec y a then false else true) (oset_of b))%list.
Proof.
  induction a as [|x a IH]; cbn [oset_of List.app].
  - symmetry. induction (oset_of b) as [|y l IH]; cbn [filter in_dec list_rec list_rect]; [reflexivity|].
    f_equal. exact IH.
  - f_equal. rewrite IH, filter_app. f_equal. clear IH. induction (oset_of b) as [|y l IHl]; [reflexivity|]. cbn [filter].
    destruct (in_dec string_dec y a) as [Hi|Hi]; destruct (in_dec string_dec y (x :: a)) as [Hj|Hj].
    + exact IHl.
    + exfalso. apply Hj. now right.
    + cbn [filter]. destruct Hj as [->|Hj]; [|contradiction]. rewrite String.eqb_refl. exact IHl.
    + cbn [filter]. destruct (String.eqb_spec x y) as [->|]; [exfalso; apply Hj; now left|]. cbn [negb]. f_equal. exact IHl.
Qed.

Lemma oset_length l : List.length (oset_of l) = List.length (nodup string_dec l).
Proof.
  apply Nat.le_antisymm; apply NoDup_incl_length.
  - apply oset_of_NoDup.
  - intros x Hx. apply nodup_In. now apply oset_of_In.
  - apply NoDup_nodup.
  - intros x Hx. apply oset_of_In. now apply nodup_In in Hx.
Qed.

Lemma position_count l1 c l2 : ~ In c l1 ->
  position c (oset_of (l1 ++ c :: l2)) = Some (Z.of_nat (List.length (nodup string_dec l1))).
Proof.
  intros H. rewrite oset_app. cbn [oset_of filter]. destruct (in_dec string_dec c l1) as [|_]; [contradiction|].
  rewrite <- oset_length. apply position_app. apply NoDup_app_single; [apply oset_of_NoDup|]. intros G. apply H. exact (proj1 (oset_of_In c l1) G).
Qed.

(* When names repeat, a requested code is served with the band whose number is
   the count of different names before the code's first occurrence, and the
   result calls it by the name of that band. *)
Theorem C38_exact : forall {V} (W : world V) F, finalizer W F ->
  forall t a nl lazy same p req, made t -> all_3d W t -> F t = Ok a ->
  names t = Some nl -> req <> [] -> incl req nl -> p <> OtherP -> req <> nl ->
  exists t' a' nl', take_named t lazy same p req = Ok t' /\ F t' = Ok a' /\ names t' = Some nl' /\
    same_canvas a a' /\ a_c a' = Some (Z.of_nat (List.length req)) /\
    forall i c l1 l2, nth_error req i = Some c -> nl = (l1 ++ c :: l2)%list -> ~ In c l1 ->
      let b := List.length (nodup string_dec l1) in
      band_is a' (Z.of_nat i) a (Z.of_nat b) /\ nth_error nl' i = nth_error nl b.
Proof.
  intros V W F HF t a nl lazy same p req Hm H3 Ha Hnl Hreq Hin Hp Hne.
  destruct (made_ok _ Hm) as [Hw Ht].
  destruct (take_named_bands W F HF t a lazy same p req nl Hw Ht H3 Ha Hnl Hreq) as (t' & a' & H1 & H2 & H4 & H5).
  { left. destruct p; cbn; auto. }
  destruct H5 as [[E _] | [H5 H6]]; [contradiction|].
  exists t', a', (map (final_name nl) req). split; [exact H1|]. split; [exact H2|]. split; [exact H6|].
  destruct H5 as (A1 & A2 & A3 & A4). split; [split; congruence|]. rewrite map_length in A3. split; [exact A3|].
  intros i c l1 l2 Hi E Hnd b. split.
  - intros r cc [Hr Hcc]. rewrite (A4 i (code_band W a nl c) r cc); [|rewrite nth_error_map, Hi; reflexivity|lia|lia].
    unfold code_band. now rewrite E, (position_count _ _ _ Hnd).
  - rewrite nth_error_map, Hi. cbn [option_map]. unfold final_name. rewrite E, (position_count _ _ _ Hnd). rewrite Nat2Z.id. fold b.
    symmetry. apply nth_error_nth'. rewrite app_length. cbn [List.length].
    pose proof (oset_len l1) as G. rewrite oset_length in G. unfold b. lia.
Qed.
Print Assumptions C38_exact.

(* a|b|a|c: the code c is served with band 2 (the second a) *)
Example C38_exact_case : let nl := ["a"; "b"; "a"; "c"]%string in
  made (img 1 6 5 nl None) /\ all_3d tk_world (img 1 6 5 nl None) /\
  nl = (["a"; "b"; "a"]%string ++ "c"%string :: [])%list /\ ~ In "c"%string ["a"; "b"; "a"]%string /\
  List.length (nodup string_dec ["a"; "b"; "a"]%string) = 2%nat /\
  rmap (fun t => (names t, rmap (fun a => a_pix a 2 3 0) (finalize tk_world t)))
    (take_named (img 1 6 5 nl None) true false ReturnNan ["c"]%string) = Ok (Some ["a"]%string, Ok 1232).
Proof.
  cbv zeta. split; [apply made_img; lia|]. split; [vm_compute; tauto|]. split; [reflexivity|].
  split; [cbn; intuition discriminate|]. split; vm_compute; reflexivity.
Qed.

(** * C39 *)

Lemma runs_missing l : l <> [] -> runs (map (fun c => (None, c)) l) = [(None, map (fun c => (0, c)) l)].
Proof.
  destruct l as [|c l]; [contradiction|]. intros _. revert c. induction l as [|x l IH]; intros c; [reflexivity|].
  change (map (fun c0 => (None, c0)) (c :: x :: l)) with ((@None (nat * Z), c) :: map (fun c0 => (None, c0)) (x :: l)).
  cbn [runs]. rewrite IH. reflexivity.
Qed.

(* The k-th band of a concatenation is optimized to k bands of missing data named
   u0, u1, ...; nothing is left for k = 0 and the crop is refused. *)
Theorem C39_optimized : forall {V} (W : world V) ps d nl ys xs k c w h,
  made (Concat ps d) -> names (Concat ps d) = Some nl ->
  mkCrop (Concat ps d) (Some (ys, xs)) None = Ok c -> dsize c = Some (w, h) ->
  (forall i, 0 <= i < k -> ~ In (String "u" (Z_str i)) nl) ->
  (k <= 0 -> one_band_optimized ps d ys xs k = Err AssertionError) /\
  (0 < k -> exists t' a', one_band_optimized ps d ys xs k = Ok t' /\ finalize W t' = Ok a' /\
     a_w a' = w /\ a_h a' = h /\ a_c a' = Some k /\
     forall b, 0 <= b < k -> band_const a' b (w_nan W)).
Proof.
  intros V W ps d nl ys xs k c w h Hm Hnl Hc Hdc Hu. destruct (made_ok _ Hm) as [Hw Ht].
  destruct (wf_meta _ Hw) as (m & Hmn & _ & _). cbn [num_channels] in Hmn. apply sum_opt_known in Hmn as (sizes & Ek & _).
  destruct (tight_dsize _ Ht) as (w0 & h0 & Hd & Hw0 & Hh0). cbn [dsize] in Hd. subst d. cbn [names] in Hnl.
  unfold mkCrop in Hc. cbn [dsize] in Hc. apply bind_ok in Hc as ([y x] & Hyx & Hc).
  apply bind_ok in Hyx as (y' & Hy & Hyx). apply bind_ok in Hyx as (x' & Hx & Hyx). injection Hyx as -> ->.
  cbn [bind] in Hc. injection Hc as <-. cbn [dsize] in Hdc. injection Hdc as <- <-.
  destruct (GeomProofs.wrap_clip_bounds h0 ys y ltac:(lia) Hy) as (Y1 & Y2 & Y3).
  destruct (GeomProofs.wrap_clip_bounds w0 xs x ltac:(lia) Hx) as (X1 & X2 & X3).
  assert (Hidx : code_indexes nl (ChanModel.from_int_codes k) = map (fun c => (None, c)) (ChanModel.from_int_codes k)).
  { unfold code_indexes. apply map_ext_in. intros s Hs. f_equal. apply position_none. intros G. apply (proj1 (oset_of_In _ _)) in G.
    unfold ChanModel.from_int_codes in Hs. apply in_map_iff in Hs as (i & <- & Hi). apply zseq_In in Hi. apply (Hu i); [lia|exact G]. }
  assert (Hloc : forall l, mapR (locate sizes) (map (fun c => (None, c)) l) = Ok (map (fun c => (None, c)) l)).
  { induction l as [|s l IH]; [reflexivity|]. cbn [map mapR locate fst snd bind]. rewrite IH. reflexivity. }
  unfold one_band_optimized, take_concat. rewrite Hnl. cbn [spec_eqb andb bind]. rewrite Ek, Hidx, Hloc. cbn [bind].
  rewrite Hy, Hx. split.
  - intros Hk. assert (E : ChanModel.from_int_codes k = []) by (unfold ChanModel.from_int_codes; replace (Z.to_nat k) with 0%nat by lia; reflexivity).
    rewrite E. reflexivity.
  - intros Hk. set (us := ChanModel.from_int_codes k). assert (Hl : List.length us = Z.to_nat k).
    { unfold us, ChanModel.from_int_codes. now rewrite map_length, zseq_length. }
    rewrite runs_missing by (intros E; rewrite E in Hl; cbn in Hl; lia).
    cbn [mapR run_component fst snd bind]. rewrite map_map, !map_length, Hl. cbn [mkConcat map dsize forallb].
    assert (Hcrop : forall s, dsize s = Some (w0, h0) ->
      mkCrop s (Some (some_slice y, some_slice x)) None = Ok (Crop s y x None (iv_len x, iv_len y) None None)).
    { intros s Hs. unfold mkCrop. rewrite Hs. destruct y as [y1 y2], x as [x1 x2]. unfold some_slice. cbn [fst snd] in *.
      rewrite !GeomProofs.wrap_clip_id by lia. reflexivity. }
    cbn [bind]. rewrite Hcrop by reflexivity. cbn [bind push_under mapR]. rewrite Hcrop by reflexivity.
    cbn [bind rmap mkConcat map dsize forallb].
    eexists _, _. split; [reflexivity|]. split.
    + cbn [finalize map mapR bind stack_bands]. unfold finalize_leaf. cbn [l_kind l_dsize l_nc bind rmap].
      unfold index_array. cbn [a_h a_w]. rewrite !axis_slice_in by (cbn; lia). reflexivity.
    + cbn. repeat split; try lia. f_equal. lia.
Qed.
Print Assumptions C39_optimized.

Example C39_optimized_case : made tk_cat /\ names tk_cat = Some ["a"; "b"; "c"; "d"; "e"]%string /\
  (exists c, mkCrop (Concat tk_parts (Some (6, 5))) (Some ((Some 2, Some (-1)), (Some (-4), None))) None = Ok c /\
     dsize c = Some (4, 2)) /\
  (forall i, 0 <= i < 3 -> ~ In (String "u" (Z_str i)) ["a"; "b"; "c"; "d"; "e"]%string).
Proof.
  split; [exact tk_made|]. split; [reflexivity|]. split; [eexists; split; vm_compute; reflexivity|].
  intros i _ H. repeat (destruct H as [H|H]; [discriminate H|]). exact H.
Qed.

(** * C14 *)

(* component_indices gives every slice code one channel and every other code the
   number of names it stands for, whatever the spec; together they cover numel()
   exactly when the slice codes stand for as many channels as there are slice
   codes. *)
Theorem C14_exact : forall l, NoDup l ->
  exists szs, Forall2 (fun c z => if contains ":" c then z = 1
                                  else exists ns, ChanSpec.denotes c ns /\ z = Z.of_nat (List.length ns)) l szs /\
    ChanModel.fused_component_indices (ChanModel.mkF l false) = combine l (ChanSpec.tile 0 szs) /\
    forall ls, Forall2 ChanSpec.denotes l ls ->
      let total := Z.of_nat (List.length (List.concat ls)) in
      let slices := filter (fun p => contains ":" (fst p)) (combine l ls) in
      ChanModel.numel (ChanModel.mkF l false) = Ok total /\
      (ChanModel.zsum szs = total <-> List.length (List.concat (map snd slices)) = List.length slices).
Proof.
  intros l Hnd. exists (map ChanModel.size_lut l). split; [|split].
  - clear Hnd. induction l as [|c l IH]; cbn [map]; constructor; [|exact IH].
    unfold ChanModel.size_lut. destruct (contains ":" c) eqn:Ec.
    + destruct (ChanModel.alias_lut c) as [ns|] eqn:E; [|reflexivity]. apply ChanProofs.alias_lut_Some in E.
      repeat (destruct E as [E|E]; [injection E as <- <-; discriminate Ec|]). destruct E.
    + destruct (ChanModel.alias_lut c) as [ns|] eqn:E.
      * exists ns. split; [|reflexivity]. apply ChanSpec.den_alias. now apply ChanProofs.alias_lut_Some.
      * exists [c]. split; [|reflexivity]. apply ChanSpec.den_atom. split; [now apply ChanProofs.alias_lut_None|exact Ec].
  - unfold ChanModel.fused_component_indices. cbn [ChanModel.codes]. now rewrite ChanStreamProofs.fci_loop_fresh by auto.
  - intros ls Hls total slices. split.
    + apply ChanStreamProofs.numel_names; [intros H; discriminate H|]. exists ls. auto.
    + assert (G : total + Z.of_nat (List.length slices) =
                  ChanModel.zsum (map ChanModel.size_lut l) + Z.of_nat (List.length (List.concat (map snd slices)))).
      { unfold total, slices. clear total slices Hnd. induction Hls as [|c ns l ls Hc Hls IH]; [reflexivity|].
        cbn [map List.concat combine filter fst]. unfold ChanModel.zsum in *. cbn [fold_right].
        rewrite app_length. destruct (contains ":" c) eqn:Ec; cbn [map List.concat List.length snd]; rewrite ?app_length.
        - assert (E : ChanModel.size_lut c = 1).
          { unfold ChanModel.size_lut. destruct (ChanModel.alias_lut c) as [ns'|] eqn:E; [|reflexivity]. apply ChanProofs.alias_lut_Some in E.
            repeat (destruct E as [E|E]; [injection E as <- <-; discriminate Ec|]). destruct E. }
          rewrite E. lia.
        - assert (E : ChanModel.size_lut c = Z.of_nat (List.length ns)).
          { unfold ChanModel.size_lut. inversion Hc as [? ? H|? H|? root st sp step idxs H]; subst.
            - apply ChanProofs.alias_lut_Some in H. now rewrite H.
            - destruct H as [H _]. apply ChanProofs.alias_lut_None in H. now rewrite H.
            - exfalso. destruct H; repeat (rewrite contains_app in Ec; cbn [contains] in Ec);
                rewrite ?Ascii.eqb_refl, ?orb_true_r, ?orb_true_l in Ec; cbn [orb] in Ec; rewrite ?orb_true_r in Ec; discriminate Ec. }
          rewrite E. lia. }
      lia.
Qed.
Print Assumptions C14_exact.

(* a|b:3|rgb: the slice b:3 (three channels) is given one channel, so the ranges
   end two channels short; x.5:6 is one channel and fits *)
Example C14_exact_case :
  NoDup ["a"; "b:3"; "rgb"]%string /\
  ChanModel.fused_component_indices (ChanModel.mkF ["a"; "b:3"; "rgb"]%string false) =
    [("a"%string, (0, 1)); ("b:3"%string, (1, 2)); ("rgb"%string, (2, 5))] /\
  ChanModel.numel (ChanModel.mkF ["a"; "b:3"; "rgb"]%string false) = Ok 7 /\
  ChanModel.numel (ChanModel.mkF ["a"; "x.5:6"]%string false) = Ok 2.
Proof. split; [repeat constructor; cbn; intuition discriminate|]. repeat split; vm_compute; reflexivity. Qed.
