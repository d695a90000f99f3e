(* Property theorems about channel selection, cropping, concatenation and
   dequantization.  Vocabulary (TakeSpec.v): a [finalizer W F] turns trees into
   arrays the way the code does, with any result of the right shape for warps
   and overviews; [band_is a' i a b] - band i of a' is band b of a;
   [selection a rows cols bands a'] - a' is numpy's a[ix_(rows, cols, bands)].
   [made t]: the tree was built by constructor calls of the API. *)
From Verif Require GeomProofs.
From Verif Require Import Py PyProofs GeomModel GraphModel GraphSpec GraphBase GraphSize GraphTotal FinalModel FinalSpec FinalProofs GraphProps TakeModel TakeSpec TakeProofs CropProofs NamedProofs.
From Coq Require Import ZifyBool.
Local Open Scope Z_scope.

Lemma opt_size_dec (a b : option size) : {a = b} + {a <> b}.
Proof. repeat decide equality. Qed.

Definition tk_world : world Z :=
  World (fun id r c b => 1000 * id + 100 * r + 10 * c + b) (fun _ => false) (-1) (-2) (fun q v => v + 100000 * q).

(* concat of an image with bands a|b|c and one with bands d|e *)
Definition tk_parts : list node := [img 1 6 5 ["a"; "b"; "c"]%string None; img 2 6 5 ["d"; "e"]%string None].
Definition tk_cat : node := concat_of tk_parts.

Lemma tk_made : made tk_cat.
Proof.
  apply (made_concat tk_parts); [|discriminate|reflexivity].
  repeat (constructor; [apply made_img; lia|]). constructor.
Qed.

Lemma tk_3d : all_3d tk_world tk_cat.
Proof. vm_compute. tauto. Qed.

(** C36: under a valid policy, take_channels of existing channels succeeds; the
    result has the size of the tree, the requested channel names, and at band i
    the data of the channel named by the i-th requested code. *)
Theorem C36_take_channels : forall {V} (W : world V) F, finalizer W F ->
  forall t a nl lazy same p req, made t -> all_3d W t -> F t = Ok a ->
  names t = Some nl -> NoDup nl -> req <> [] -> incl req nl -> p <> OtherP ->
  exists t' a', take_named t lazy same p req = Ok t' /\ F t' = Ok a' /\
    names t' = Some req /\ dsize t' = dsize t /\ same_canvas a a' /\
    a_c a' = Some (Z.of_nat (List.length req)) /\
    forall i b c, nth_error req i = Some c -> nth_error nl b = Some c ->
      band_is a' (Z.of_nat i) a (Z.of_nat b).
Proof.
  intros V W F HF t a nl lazy same p req Hm H3 Ha Hnl Hnd Hreq Hin Hp.
  destruct (made_ok _ Hm) as [Hw Ht].
  destruct (take_named_bands W F HF t a lazy same p req nl Hw Ht H3 Ha Hnl Hreq) as (t' & a' & H1 & H2 & H4 & H5).
  { left. destruct p; cbn; auto. }
  assert (Hpos : forall b c, nth_error nl b = Some c -> position c (oset_of nl) = Some (Z.of_nat b)).
  { intros b c Hb. rewrite (oset_of_id _ Hnd). now apply position_nth. }
  exists t', a'. split; [exact H1|]. split; [exact H2|]. destruct H5 as [[-> ->] | [H5 H6]].
  - assert (a' = a) by congruence. subst a'. split; [exact Hnl|]. split; [exact H4|]. split; [split; reflexivity|].
    destruct (F_shaped W F HF _ _ Hw Ht H3 Ha) as (_ & n & Hn & Hc & _).
    destruct (wf_meta _ Hw) as (m & Hm' & _ & Hlen). specialize (Hlen _ Hnl). split; [rewrite Hc; congruence|].
    intros i b c Hi Hb r cc _. assert (i = b); [|congruence]. 
    eapply NoDup_nth_error; [exact Hnd| |congruence]. apply nth_error_Some. congruence.
  - destruct H5 as (A1 & A2 & A3 & A4). split.
    + rewrite H6. f_equal. clear -Hin Hpos. induction req as [|c req IH]; [reflexivity|]. cbn. f_equal.
      * destruct (In_nth_error nl c (Hin c (or_introl eq_refl))) as (b & Hb). unfold final_name. rewrite (Hpos _ _ Hb), Nat2Z.id.
        now apply nth_error_nth.
      * apply IH. intros x Hx; apply Hin; now right.
    + split; [exact H4|]. split; [split; congruence|]. rewrite map_length in A3. split; [exact A3|].
      intros i b c Hi Hb r cc [Hr Hcc]. rewrite (A4 i (code_band W a nl c) r cc); [|rewrite nth_error_map, Hi; reflexivity|lia|lia].
      unfold code_band. now rewrite (Hpos _ _ Hb).
Qed.
Print Assumptions C36_take_channels.

Example C36_case : made tk_cat /\ all_3d tk_world tk_cat /\ names tk_cat = Some ["a"; "b"; "c"; "d"; "e"]%string /\
  exists t' a', take_named tk_cat true false ReturnNan ["e"; "b"; "c"]%string = Ok t' /\
    finalize tk_world t' = Ok a' /\ a_pix a' 2 3 0 = 2231 /\ a_pix a' 2 3 1 = 1231 /\ a_pix a' 2 3 2 = 1232.
Proof.
  split; [exact tk_made|]. split; [exact tk_3d|]. split; [reflexivity|]. eexists.
  destruct (observe (fun a => (a_pix a 2 3 0, a_pix a 2 3 1, a_pix a 2 3 2))
    (finalize tk_world (the (take_named tk_cat true false ReturnNan ["e"; "b"; "c"]%string))) (2231, 1231, 1232)) as (a & Ha & E);
    [vm_compute; reflexivity|]. injection E as E1 E2 E3.
  exists a. split; [vm_compute; reflexivity|]. split; [exact Ha|]. auto.
Qed.

(** C37: under return_nan a requested channel that does not exist becomes an
    all-NaN band at its position, whatever else is requested, and the other
    bands carry their names; under "error" take_channels raises ValueError exactly
    if some requested channel is missing. *)
Theorem C37_missing_nan : forall {V} (W : world V) F, finalizer W F ->
  forall t a nl lazy same req, made t -> all_3d W t -> F t = Ok a ->
  names t = Some nl -> req <> [] ->
  exists t' a', take_named t lazy same ReturnNan req = Ok t' /\ F t' = Ok a' /\
    dsize t' = dsize t /\ same_canvas a a' /\ a_c a' = Some (Z.of_nat (List.length req)) /\
    forall i c, nth_error req i = Some c -> ~ In c nl -> band_const a' (Z.of_nat i) (w_nan W).
Proof.
  intros V W F HF t a nl lazy same req Hm H3 Ha Hnl Hreq.
  destruct (made_ok _ Hm) as [Hw Ht].
  destruct (take_named_bands W F HF t a lazy same ReturnNan req nl Hw Ht H3 Ha Hnl Hreq) as (t' & a' & H1 & H2 & H4 & H5).
  { left. exact I. }
  exists t', a'. split; [exact H1|]. split; [exact H2|]. split; [exact H4|]. destruct H5 as [[-> ->] | [H5 H6]].
  - assert (a' = a) by congruence. subst a'. split; [split; reflexivity|].
    destruct (F_shaped W F HF _ _ Hw Ht H3 Ha) as (_ & n & Hn & Hc & _).
    destruct (wf_meta _ Hw) as (m & Hm' & _ & Hlen). specialize (Hlen _ Hnl). split; [rewrite Hc; congruence|].
    intros i c Hi Hni. exfalso. apply Hni. eapply nth_error_In; exact Hi.
  - destruct H5 as (A1 & A2 & A3 & A4). split; [split; congruence|]. rewrite map_length in A3. split; [exact A3|].
    intros i c Hi Hni r cc [Hr Hcc]. rewrite (A4 i (code_band W a nl c) r cc); [|rewrite nth_error_map, Hi; reflexivity|lia|lia].
    unfold code_band. destruct (position c (oset_of nl)) as [j|] eqn:E; [|reflexivity].
    apply position_spec in E as [_ E]. exfalso. apply Hni. apply oset_of_In. eapply nth_error_In; exact E.
Qed.
Print Assumptions C37_missing_nan.

Theorem C37_missing_error : forall t nl lazy same req, made t -> names t = Some nl -> req <> [] ->
  (incl req nl -> exists t', take_named t lazy same ErrorP req = Ok t') /\
  (~ incl req nl -> take_named t lazy same ErrorP req = Err ValueError).
Proof.
  intros t nl lazy same req Hm Hnl Hreq. split.
  - intros Hin. destruct (made_ok _ Hm) as [Hw Ht]. destruct (blank_total t Hw Ht) as (a & Ha).
    destruct (take_named_bands blank_world blank blank_finalizer t a lazy same ErrorP req nl Hw Ht (blank_3d t) Ha Hnl Hreq)
      as (t' & a' & H1 & _); [left; exact Hin|]. eauto.
  - now apply take_named_error.
Qed.
Print Assumptions C37_missing_error.

Example C37_case : (exists t' a', take_named tk_cat true false ReturnNan ["e"; "x"; "c"]%string = Ok t' /\
    finalize tk_world t' = Ok a' /\ a_pix a' 2 3 0 = 2231 /\ a_pix a' 2 3 1 = -1 /\ a_pix a' 2 3 2 = 1232) /\
  take_named tk_cat true false ErrorP ["e"; "x"; "c"]%string = Err ValueError.
Proof.
  split; [|vm_compute; reflexivity]. eexists.
  destruct (observe (fun a => (a_pix a 2 3 0, a_pix a 2 3 1, a_pix a 2 3 2))
    (finalize tk_world (the (take_named tk_cat true false ReturnNan ["e"; "x"; "c"]%string))) (2231, -1, 1232)) as (a & Ha & E);
    [vm_compute; reflexivity|]. injection E as E1 E2 E3.
  exists a. split; [vm_compute; reflexivity|]. split; [exact Ha|]. auto.
Qed.

(** C38: with repeated channel names a request may return the band of another
    channel: in an image with channels a|b|a|c, requesting c returns the second
    band named a (and calls it a). *)
Theorem C38_repeated_names_refuted : ~ (forall (W : world Z) t a nl c t' a', made t -> all_3d W t ->
  finalize W t = Ok a -> names t = Some nl -> In c nl ->
  take_named t true false ReturnNan [c] = Ok t' -> finalize W t' = Ok a' ->
  exists b, nth_error nl b = Some c /\ band_is a' 0 a (Z.of_nat b)).
Proof.
  intros H.
  set (t := img 1 6 5 ["a"; "b"; "a"; "c"]%string None).
  destruct (observe (fun a => (a_h a, a_w a, a_pix a 0 0 3, a_pix a 0 0 2)) (finalize tk_world t) (5, 6, 1003, 1002)) as (a & Ha & E);
    [vm_compute; reflexivity|]. injection E as E1 E2 E3 E4.
  set (t' := the (take_named t true false ReturnNan ["c"%string])).
  destruct (observe (fun a => a_pix a 0 0 0) (finalize tk_world t') 1002) as (a' & Ha' & E'); [vm_compute; reflexivity|].
  destruct (H tk_world t a ["a"; "b"; "a"; "c"]%string "c"%string t' a') as (b & Hb & Hband).
  - apply made_img; lia.
  - vm_compute; tauto.
  - exact Ha.
  - reflexivity.
  - cbn; tauto.
  - vm_compute; reflexivity.
  - exact Ha'.
  - do 4 (destruct b as [|b]; [try discriminate Hb|]).
    + specialize (Hband 0 0). unfold on_array in Hband. rewrite E1, E2 in Hband. specialize (Hband ltac:(lia)). change (Z.of_nat 3) with 3 in Hband. lia.
    + destruct b; discriminate Hb.
Qed.
Print Assumptions C38_repeated_names_refuted.

(* A code is served correctly if no channel name repeats before (or at) its
   first occurrence. *)
Theorem C38_repeated_names_partial : forall {V} (W : world V) F, finalizer W F ->
  forall t a nl lazy same p req, made t -> all_3d W t -> F t = Ok a ->
  names t = Some nl -> req <> [] -> incl req nl -> p <> OtherP ->
  exists t' a', take_named t lazy same p req = Ok t' /\ F t' = Ok a' /\
    same_canvas a a' /\ a_c a' = Some (Z.of_nat (List.length req)) /\
    forall i c l1 l2, nth_error req i = Some c -> nl = (l1 ++ c :: l2)%list -> NoDup (l1 ++ [c]) ->
      exists b, nth_error nl b = Some c /\ band_is a' (Z.of_nat i) a (Z.of_nat b).
Proof.
  intros V W F HF t a nl lazy same p req Hm H3 Ha Hnl Hreq Hin Hp.
  destruct (made_ok _ Hm) as [Hw Ht].
  destruct (take_named_bands W F HF t a lazy same p req nl Hw Ht H3 Ha Hnl Hreq) as (t' & a' & H1 & H2 & H4 & H5).
  { left. destruct p; cbn; auto. }
  exists t', a'. split; [exact H1|]. split; [exact H2|]. destruct H5 as [[-> ->] | [H5 H6]].
  - assert (a' = a) by congruence. subst a'. split; [split; reflexivity|].
    destruct (F_shaped W F HF _ _ Hw Ht H3 Ha) as (_ & n & Hn & Hc & _).
    destruct (wf_meta _ Hw) as (m & Hm' & _ & Hlen). specialize (Hlen _ Hnl). split; [rewrite Hc; congruence|].
    intros i c l1 l2 Hi _ _. exists i. split; [exact Hi|]. intros r cc _. reflexivity.
  - destruct H5 as (A1 & A2 & A3 & A4). split; [split; congruence|]. rewrite map_length in A3. split; [exact A3|].
    intros i c l1 l2 Hi E Hnd. exists (List.length l1). split.
    + rewrite E, nth_error_app2, Nat.sub_diag by lia. reflexivity.
    + intros r cc [Hr Hcc]. rewrite (A4 i (code_band W a nl c) r cc); [|rewrite nth_error_map, Hi; reflexivity|lia|lia].
      unfold code_band. now rewrite E, (position_first _ _ _ Hnd).
Qed.
Print Assumptions C38_repeated_names_partial.

Example C38_case : NoDup (["a"; "b"]%string ++ ["c"%string]) /\ made (img 1 6 5 ["a"; "b"; "c"; "a"]%string None) /\
  rmap (fun t => rmap (fun a => a_pix a 2 3 0) (finalize tk_world t))
    (take_named (img 1 6 5 ["a"; "b"; "c"; "a"]%string None) true false ReturnNan ["c"]%string) = Ok (Ok 1232).
Proof.
  split; [repeat constructor; cbn; intuition discriminate|]. split; [apply made_img; lia|]. vm_compute. reflexivity.
Qed.

(** C39: one band of a concatenation by integer index.  Without optimize() it is
    band k; finalize() optimizes first and then returns NaN bands (k >= 1) or
    raises (k = 0). *)
Theorem C39_one_band_refuted :
  made tk_cat /\ all_3d tk_world tk_cat /\
  rmap (fun t => rmap (fun a => (a_c a, a_pix a 2 3 0, a_pix a 2 3 1)) (finalize tk_world t))
    (one_band_optimized tk_parts (Some (6, 5)) (None, None) (None, None) 2) = Ok (Ok (Some 2, -1, -1)) /\
  rmap (fun a => (a_c a, a_pix a 2 3 0)) (one_band_unoptimized tk_world tk_cat (None, None) (None, None) 2) = Ok (Some 1, 1232) /\
  one_band_optimized tk_parts (Some (6, 5)) (None, None) (None, None) 0 = Err AssertionError.
Proof. split; [exact tk_made|]. split; [exact tk_3d|]. repeat split; vm_compute; reflexivity. Qed.
Print Assumptions C39_one_band_refuted.

(* Without optimize(): row i, column j of t[ys, xs, k] is band k of the i-th row of
   the slice ys and the j-th column of the slice xs. *)
Theorem C39_one_band_partial : forall {V} (W : world V) t a n ys xs k c,
  made t -> all_3d W t -> finalize W t = Ok a ->
  a_c a = Some n -> 0 <= k < n -> mkCrop t (Some (ys, xs)) None = Ok c ->
  exists a', one_band_unoptimized W t ys xs k = Ok a' /\
    selection a (sliced ys (upto (a_h a))) (sliced xs (upto (a_w a))) [k] a'.
Proof.
  intros V W t a n ys xs k crop Hm H3 Ha Hn Hk Hcr. destruct (made_ok _ Hm) as [Hw Ht].
  destruct (F_shaped W _ (finalize_finalizer W) _ _ Hw Ht H3 Ha) as (Hd & m & Hm' & Hc & _).
  destruct (tight_dsize _ Ht) as (w & h & Hd' & Hw0 & Hh0). rewrite Hd in Hd'. injection Hd' as Ew Eh.
  unfold mkCrop in Hcr. rewrite Hd in Hcr. apply bind_ok in Hcr as ([y x] & Hcr & _).
  apply bind_ok in Hcr as (y' & Hy & Hcr). apply bind_ok in Hcr as (x' & Hx & Hcr). injection Hcr as -> ->.
  unfold one_band_unoptimized. rewrite Hd, Hy, Hx, Ha. cbn [bind].
  destruct (GeomProofs.wrap_clip_bounds (a_h a) ys y ltac:(lia) Hy) as (Y1 & Y2 & Y3).
  destruct (GeomProofs.wrap_clip_bounds (a_w a) xs x ltac:(lia) Hx) as (X1 & X2 & X3).
  unfold index_one. rewrite !axis_slice_in by (cbn; lia).
  rewrite Hn. assert (E : np_index n k = Ok k).
  { pose proof (mapR_np_index n [k]) as G. cbn in G. destruct (np_index n k) as [z|].
    - cbn in G. rewrite Forall_cons_iff in G. specialize (G (conj Hk (Forall_nil _))). congruence.
    - specialize (G (Forall_cons _ Hk (Forall_nil _))). discriminate G. }
  rewrite E. cbn [bind rmap]. eexists. split; [reflexivity|].
  destruct (sliced_upto (a_h a) ys y ltac:(lia) Hy) as [Ly Ny]. destruct (sliced_upto (a_w a) xs x ltac:(lia) Hx) as [Lx Nx].
  split; [cbn; lia|]. split; [cbn; lia|]. split; [reflexivity|].
  intros i j b r c b' Hi Hj Hb. destruct b as [|b]; [|destruct b; discriminate]. injection Hb as <-.
  apply Ny in Hi. apply Nx in Hj. subst r c. cbn. f_equal; lia.
Qed.
Print Assumptions C39_one_band_partial.

Example C39_case : made tk_cat /\ all_3d tk_world tk_cat /\
  rmap (fun a => (a_h a, a_w a, a_pix a 0 1 0)) (one_band_unoptimized tk_world tk_cat (Some 2, Some (-1)) (Some (-4), None) 2)
    = Ok (2, 4, 1232) /\ (exists c, mkCrop tk_cat (Some ((Some 2, Some (-1)), (Some (-4), None))) None = Ok c).
Proof. split; [exact tk_made|]. split; [exact tk_3d|]. split; [vm_compute; reflexivity|]. eexists. vm_compute. reflexivity. Qed.

(** C40: cropping a crop shows exactly what slicing the array twice shows, rows,
    columns and bands; fusing the two crops gives the same array from one crop
    that stays inside the inner one. *)
Theorem C40_double_crop : forall {V} (W : world V) F, finalizer W F ->
  forall s a ys1 xs1 ci1 c1 ys2 xs2 ci2 c2, made s -> all_3d W s -> F s = Ok a ->
  valid_bands s ci1 -> mkCrop s (Some (ys1, xs1)) ci1 = Ok c1 ->
  valid_bands c1 ci2 -> mkCrop c1 (Some (ys2, xs2)) ci2 = Ok c2 ->
  exists n a2, a_c a = Some n /\ F c2 = Ok a2 /\
    forall bands1 bands2, items ci1 (upto n) bands1 -> items ci2 bands1 bands2 ->
    selection a (sliced ys2 (sliced ys1 (upto (a_h a)))) (sliced xs2 (sliced xs1 (upto (a_w a)))) bands2 a2.
Proof.
  intros V W F HF s a ys1 xs1 ci1 c1 ys2 xs2 ci2 c2 Hm H3 Ha Hv1 H1 Hv2 H2. destruct (made_ok _ Hm) as [Hw Ht].
  destruct (crop_selection W F HF _ _ _ _ _ _ Hw Ht H3 Hv1 Ha H1) as (n & a1 & Hn & Ha1 & Hs1).
  assert (Hm1 : made c1).
  { destruct ci1 as [l|]; [|exact (made_crop _ _ _ Hm H1)]. destruct (Hv1 n l Hn eq_refl) as [Hl Hl'].
    apply (made_bands _ _ _ _ Hm Hl) with (2 := H1). intros n' Hn'. rewrite Hn in Hn'. now injection Hn' as <-. }
  assert (H31 : all_3d W c1).
  { apply mkCrop_shape in H1 as (w & h & ys & xs & nm & nc & _ & -> & _). exact H3. }
  destruct (made_ok _ Hm1) as [Hw1 Ht1].
  destruct (crop_selection W F HF _ _ _ _ _ _ Hw1 Ht1 H31 Hv2 Ha1 H2) as (n1 & a2 & Hn1 & Ha2 & Hs2).
  destruct (F_shaped W F HF _ _ Hw Ht H3 Ha) as (_ & n' & Hn' & Hc & _).
  destruct (F_shaped W F HF _ _ Hw1 Ht1 H31 Ha1) as (_ & n1' & Hn1' & Hc1 & _).
  exists n, a2. split; [congruence|]. split; [exact Ha2|]. intros b1 b2 Hb1 Hb2.
  apply (selection_trans a a1 a2 _ _ b1 ys2 xs2 ci2 n1 b2); auto; [congruence|].
  intros l El. exact (proj2 (Hv2 n1 l Hn1 El)).
Qed.
Print Assumptions C40_double_crop.

Theorem C40_fused_crop : forall {V} (W : world V) F, finalizer W F ->
  forall s a ys1 xs1 ci1 d1 nm1 nc1 ys xs ci d nm nc,
  let c2 := Crop (Crop s ys1 xs1 ci1 d1 nm1 nc1) ys xs ci d nm nc in
  made c2 -> all_3d W c2 -> F s = Ok a ->
  exists f a2 a3, fuse_crops s ys1 xs1 ci1 ys xs ci = Ok f /\
    F c2 = Ok a2 /\ F f = Ok a3 /\ same_array a2 a3 /\
    names f = names c2 /\ num_channels f = num_channels c2 /\ dsize f = dsize c2 /\
    exists ys' xs' ci' d' nm' nc', f = Crop s ys' xs' ci' d' nm' nc' /\
      fst ys1 <= fst ys' /\ snd ys' <= snd ys1 /\ fst xs1 <= fst xs' /\ snd xs' <= snd xs1.
Proof.
  intros V W F HF s a ys1 xs1 ci1 d1 nm1 nc1 ys xs ci d nm nc c2 Hm H3 Ha.
  destruct (made_ok _ Hm) as [Hw Ht]. eapply fuse_same; eassumption.
Qed.
Print Assumptions C40_fused_crop.

Example C40_case :
  exists c1 c2 a2, mkCrop tk_cat (Some ((Some 1, None), (Some (-5), Some 9))) (Some [4; 0; 2]) = Ok c1 /\
    mkCrop c1 (Some ((Some (-3), Some 3), (Some 1, None))) (Some [2; 0]) = Ok c2 /\ made c2 /\
    finalize tk_world c2 = Ok a2 /\ a_h a2 = 2 /\ a_w a2 = 4 /\ a_c a2 = Some 2 /\ a_pix a2 1 1 0 = 1332 /\
    items (Some [4; 0; 2]) (upto 5) [4; 0; 2] /\ items (Some [2; 0]) [4; 0; 2] [2; 4] /\
    sliced (Some (-3), Some 3) (sliced (Some 1, None) (upto 5)) = [2; 3].
Proof.
  set (c1 := the (mkCrop tk_cat (Some ((Some 1, None), (Some (-5), Some 9))) (Some [4; 0; 2]))).
  set (c2 := the (mkCrop c1 (Some ((Some (-3), Some 3), (Some 1, None))) (Some [2; 0]))).
  exists c1, c2.
  destruct (observe (fun a => (a_h a, a_w a, a_c a, a_pix a 1 1 0)) (finalize tk_world c2) (2, 4, Some 2, 1332)) as (a & Ha & E);
    [vm_compute; reflexivity|]. injection E as E1 E2 E3 E4. exists a.
  split; [vm_compute; reflexivity|]. split; [vm_compute; reflexivity|]. split.
  { apply (made_bands c1 (Some ((Some (-3), Some 3), (Some 1, None))) [2; 0]); [|discriminate| |vm_compute; reflexivity].
    - apply (made_bands tk_cat (Some ((Some 1, None), (Some (-5), Some 9))) [4; 0; 2]); [exact tk_made|discriminate| |vm_compute; reflexivity].
      intros n Hn. vm_compute in Hn. injection Hn as <-. repeat constructor; lia.
    - intros n Hn. vm_compute in Hn. injection Hn as <-. repeat constructor; lia. }
  split; [exact Ha|]. do 4 (split; [assumption|]). split; [repeat constructor|]. split; [repeat constructor|]. reflexivity.
Qed.

(** C41: concatenation. *)
Theorem C41_bands : forall {V} (W : world V) F, finalizer W F ->
  forall ps1 p ps2 t a x off, Forall made (ps1 ++ p :: ps2) -> mkConcat (ps1 ++ p :: ps2) = Some t ->
  all_3d W t -> F t = Ok a -> F p = Ok x -> sum_opt (map num_channels ps1) = Some off ->
  same_canvas a x /\ exists n, num_channels p = Some n /\ a_c x = Some n /\
    forall j, 0 <= j < n -> band_is a (off + j) x j.
Proof.
  intros V W F HF ps1 p ps2 t a x off Hm Ht H3 Ha Hx Ho.
  assert (Hmt : made t) by (apply (made_concat _ _ Hm) with (2 := Ht); destruct ps1; discriminate).
  destruct (made_ok _ Hmt) as [Hw Hti]. apply mkConcat_spec in Ht as (d & -> & _). eapply concat_band; eassumption.
Qed.
Print Assumptions C41_bands.

Theorem C41_finalizes : forall {V} (W : world V) F, finalizer W F ->
  forall ps t, Forall made ps -> ps <> [] -> mkConcat ps = Some t -> all_3d W t ->
  (Forall (fun p => exists x, F p = Ok x) ps <-> exists a, F t = Ok a).
Proof.
  intros V W F HF ps t Hm Hne Ht H3.
  assert (Hmt : made t) by exact (made_concat _ _ Hm Hne Ht).
  destruct (made_ok _ Hmt) as [Hw Hti]. apply mkConcat_spec in Ht as (d & -> & Hds & _). split.
  - intros Hall. rewrite (f_concat _ _ HF). pose proof (tight_dsize _ Hti) as (w & h & Hd & _). cbn in Hd. subst d.
    apply wf_concat in Hw as (Hw & _). apply tight_concat in Hti as (_ & Hti & _). apply (leafs_concat _ ps (Some (w, h))) in H3.
    assert (G : exists l bss, mapR F ps = Ok l /\ Forall2 (fun x b => has x w h b) l bss).
    { clear Hne Hmt Hm. induction ps as [|p ps IH]; [exists [], []; split; [reflexivity|constructor]|].
      inversion Hall as [|? ? (x & Hx) Hall']; inversion Hw; inversion Hti; inversion Hds; inversion H3; subst.
      destruct IH as (l & bss & Hl & Hb); [assumption..|].
      destruct (F_shaped W F HF p x) as (Hd & n & Hn & Hc & Hn0); [assumption..|].
      exists (x :: l), (bands_of x n :: bss). cbn. rewrite Hx. cbn. rewrite Hl. split; [reflexivity|]. constructor; [|exact Hb].
      assert (a_w x = w /\ a_h x = h) as [<- <-] by (split; congruence). now apply has_self. }
    destruct G as (l & bss & Hl & Hb). rewrite Hl. cbn [bind].
    destruct (has_stack l w h bss) as (x & Hx & _); [|exact Hb|eauto].
    intros ->. apply mapR_length in Hl. destruct ps; [congruence|discriminate].
  - intros (a & Ha). rewrite (f_concat _ _ HF) in Ha. apply bind_ok in Ha as (l & Hl & _). apply mapR_Forall2 in Hl.
    clear -Hl. induction Hl; constructor; eauto.
Qed.
Print Assumptions C41_finalizes.

Theorem C41_channels : forall ps t, mkConcat ps = Some t ->
  (forall ls, Forall2 (fun p l => names p = Some l) ps ls -> names t = Some (List.concat ls)) /\
  (forall ns, Forall2 (fun p n => num_channels p = Some n) ps ns -> num_channels t = Some (fold_right Z.add 0 ns)) /\
  Forall (fun p => dsize p = dsize t) ps.
Proof.
  intros ps t Ht. apply mkConcat_spec in Ht as (d & -> & Hd & _). cbn [names num_channels dsize]. split; [|split; [|exact Hd]].
  - intros ls H. induction H as [|p l ps ls Hp H IH]; [reflexivity|]. inversion Hd; subst. cbn. now rewrite Hp, IH.
  - intros ns H. induction H as [|p n ps ns Hp H IH]; [reflexivity|]. inversion Hd; subst. cbn. now rewrite Hp, IH.
Qed.
Print Assumptions C41_channels.

Theorem C41_mismatch_rejected : forall ps,
  mkConcat ps = None <-> exists p q, In p ps /\ In q ps /\ dsize p <> dsize q.
Proof.
  intros ps. split.
  - intros H. destruct ps as [|p ps]; [discriminate|].
    destruct (Forall_Exists_dec (fun q => dsize q = dsize p)
      (fun q => opt_size_dec (dsize q) (dsize p)) ps) as [Hall|Hex].
    + exfalso. destruct (mkConcat_total (p :: ps) (dsize p)) as (n & Hn); [constructor; auto|congruence].
    + apply Exists_exists in Hex as (q & Hq & Hne). exists q, p. split; [now right|]. split; [now left|exact Hne].
  - intros (p & q & Hp & Hq & Hne). destruct (mkConcat ps) as [t|] eqn:E; [|reflexivity]. exfalso.
    apply mkConcat_spec in E as (d & -> & Hd & _). rewrite Forall_forall in Hd. rewrite (Hd _ Hp), (Hd _ Hq) in Hne. auto.
Qed.
Print Assumptions C41_mismatch_rejected.

Example C41_case : Forall made tk_parts /\ mkConcat tk_parts = Some tk_cat /\
  num_channels tk_cat = Some 5 /\ names tk_cat = Some ["a"; "b"; "c"; "d"; "e"]%string /\
  rmap (fun a => (a_c a, a_pix a 4 5 3)) (finalize tk_world tk_cat) = Ok (Some 5, 2450) /\
  mkConcat (img 3 6 4 ["x"]%string None :: tk_parts) = None.
Proof.
  split; [repeat (constructor; [apply made_img; lia|]); constructor|].
  repeat split; vm_compute; reflexivity.
Qed.

(** C42: dequantizing commutes with cropping and band selection, and with
    concatenation. *)
Theorem C42_dequantize_crop : forall {V} (W : world V) F, finalizer W F ->
  forall s q sl ci c a, made s -> all_3d W s -> F s = Ok a ->
  mkCrop (mkDequant s q) sl ci = Ok c ->
  exists c', mkCrop s sl ci = Ok c' /\ F c = F (mkDequant c' q) /\
    dsize (mkDequant c' q) = dsize c /\ names (mkDequant c' q) = names c.
Proof.
  intros V W F HF s q sl ci c a Hm H3 Ha Hc. destruct (made_ok _ Hm) as [Hw Ht].
  unfold mkCrop in *. cbn [mkDequant dsize names] in Hc |- *. destruct (dsize s) as [[w h]|]; [|discriminate].
  apply bind_ok in Hc as ([ys xs] & Hs & Hc). rewrite Hs. cbn [bind].
  destruct ci as [l|].
  - destruct (names s) as [nl|] eqn:En.
    + apply bind_ok in Hc as ([nm nc] & Hn & Hc). rewrite Hn. cbn [bind]. injection Hc as <-. eexists. split; [reflexivity|].
      split; [unfold mkDequant; eapply dequant_crop; eassumption|]. split; reflexivity.
    + cbn [bind] in *. injection Hc as <-. eexists. split; [reflexivity|].
      split; [unfold mkDequant; eapply dequant_crop; eassumption|]. split; reflexivity.
  - cbn [bind] in *. injection Hc as <-. eexists. split; [reflexivity|].
    split; [unfold mkDequant; eapply dequant_crop; eassumption|]. split; reflexivity.
Qed.
Print Assumptions C42_dequantize_crop.

Theorem C42_dequantize_concat : forall {V} (W : world V) F, finalizer W F ->
  forall ps q t a, Forall made ps -> ps <> [] -> mkConcat ps = Some t -> all_3d W t -> F t = Ok a ->
  exists t' x y, mkConcat (map (fun p => mkDequant p q) ps) = Some t' /\
    F (mkDequant t q) = Ok x /\ F t' = Ok y /\ same_array x y.
Proof.
  intros V W F HF ps q t a Hm Hne Ht H3 Ha.
  destruct (made_ok _ (made_concat _ _ Hm Hne Ht)) as [Hw Hti]. apply mkConcat_spec in Ht as (d & -> & Hd & _).
  destruct (dequant_concat W F HF ps d q d d a Hw Hti H3 Ha) as (x & y & Hx & Hy & Hs).
  exists (Concat (map (fun p => mkDequant p q) ps) d), x, y. split; [|split; [exact Hx|split; [exact Hy|exact Hs]]].
  apply mkConcat_spec. exists d. split; [reflexivity|]. split.
  - clear -Hd. induction Hd as [|p ps Hp Hd IH]; cbn [map]; [constructor|]. constructor; [cbn; rewrite Hp; now destruct d|exact IH].
  - destruct ps; [congruence|discriminate].
Qed.
Print Assumptions C42_dequantize_concat.

(** Every sample of a dequantized image is the dequantized sample; without a
    quantization the samples are unchanged. *)
Theorem C42_dequantize_values : forall {V} (W : world V) F, finalizer W F ->
  forall s q a, made s -> F s = Ok a ->
  exists x, F (mkDequant s q) = Ok x /\ same_canvas x a /\
    forall r c b, on_array a r c ->
      a_pix x r c b = match q with Some i => w_dq W i (a_pix a r c b) | None => a_pix a r c b end.
Proof.
  intros V W F HF s q a Hm Ha. unfold mkDequant. rewrite (f_dequant _ _ HF), Ha. cbn [rmap].
  eexists. split; [reflexivity|]. unfold same_canvas, dq_array, atleast3.
  destruct q as [i|], (a_c a); cbn; repeat split; reflexivity.
Qed.
Print Assumptions C42_dequantize_values.

Example C42_case :
  exists c, mkCrop (mkDequant tk_cat (Some 1)) (Some ((Some 1, Some 3), (None, Some 4))) (Some [3; 1]) = Ok c /\
    rmap (fun a => (a_c a, a_pix a 1 2 0)) (finalize tk_world c) = Ok (Some 2, 102220).
Proof. eexists. split; vm_compute; reflexivity. Qed.

(** C78: evaluate() is transparent: the in-memory image it returns has the size,
    channels and pixels of the tree (trees of exact operations). *)
Theorem C78_evaluate : forall {V} (W : world V) o fuel id t a t', built t -> all_3d W t ->
  evaluate W o fuel id t = Ok (a, t') ->
  dsize t' = dsize t /\ names t' = names t /\ num_channels t' = num_channels t /\
  exists a0 a1, finalize W t = Ok a0 /\ finalize (with_data W id a) t' = Ok a1 /\ same_array a0 a1.
Proof.
  intros V W o fuel id t a t' Hb H3 H. unfold evaluate in H. apply bind_ok in H as ([u b] & Hu & H).
  apply bind_ok in H as (x & Hx & H). injection H as <- <-.
  destruct (optimize_same_array W o t u Hb H3) as (a0 & a1 & H0 & H1 & Hs); [exists fuel, b; exact Hu|].
  assert (a1 = x) by congruence. subst a1.
  destruct (shape_is_metadata W t Hb H3) as (a' & n & Ha' & Hd & Hn & Hc & _). assert (a' = a0) by congruence. subst a'.
  destruct Hs as (S1 & S2 & S3 & S4). rewrite Hd. cbn [dsize names num_channels l_dsize l_names l_nc].
  rewrite <- S3, Hc. split; [reflexivity|]. split; [reflexivity|]. split; [symmetry; exact Hn|].
  exists a0. eexists. split; [exact H0|]. cbn [finalize]. unfold finalize_leaf, with_data. cbn [l_nc l_dsize l_kind l_id w_flat w_pix].
  rewrite Z.eqb_refl, <- S3, Hc. split; [reflexivity|].
  split; [reflexivity|]. split; [reflexivity|]. split; [exact Hc|]. cbn [a_pix]. exact S4.
Qed.
Print Assumptions C78_evaluate.

Example C78_case : exists a t', evaluate ex_world axis_oracle 30 99 ex_tree = Ok (a, t') /\ dsize t' = Some (4, 2) /\
  a_pix a 1 2 1 = 107431.
Proof.
  destruct (observe (fun '(a, t') => (a_pix a 1 2 1, dsize t')) (evaluate ex_world axis_oracle 30 99 ex_tree) (107431, Some (4, 2)))
    as ([a t'] & Ha & E); [vm_compute; reflexivity|]. injection E as E1 E2. exists a, t'. auto.
Qed.

(* The same over H x W data: the in-memory image holds the very array, axis or not. *)
Theorem C78_evaluate_flat : forall {V} (W : world V) o fuel id t a t', built t -> flat_one W t ->
  evaluate W o fuel id t = Ok (a, t') ->
  dsize t' = dsize t /\ names t' = names t /\ num_channels t' = num_channels t /\
  exists a1, finalize (with_data W id a) t' = Ok a1 /\ same_array a1 a /\
    (forall a0, finalize W t = Ok a0 -> same_array (atleast3 a0) (atleast3 a1)).
Proof.
  intros V W o fuel id t a t' Hb Hf H. unfold evaluate in H. apply bind_ok in H as ([u b] & Hu & H).
  apply bind_ok in H as (x & Hx & H). injection H as <- <-.
  assert (Hf' : flat_one W u).
  { destruct (built_ok _ Hb) as (Hw & Ht & He). pose proof (exact_ov_free _ He) as Hr.
    destruct (optimize_kept o fuel t u b Hw Hr Ht Hu) as (_ & _ & Hkp). destruct Hkp as [_ Hl']. exact (Hl' _ Hf). }
  assert (H3 : all_3d (unflat W) t).
  { clear. unfold all_3d. induction t as [l|ps d IH|s ys xs ci d nm nc IH|s M d al IH|s q d IH|s k d IH] using node_ind'; cbn; auto.
    - now destruct (l_kind l).
    - apply (leafs_concat _ ps d). exact IH. }
  destruct (optimize_same_array (unflat W) o t u Hb H3) as (a0 & a1 & H0 & H1 & Hs); [exists fuel, b; exact Hu|].
  rewrite (unflat_finalize W u Hf' x Hx) in H1. injection H1 as <-.
  destruct (shape_is_metadata (unflat W) t Hb H3) as (a' & n & Ha' & Hd & Hn & Hc & _). assert (a' = a0) by congruence. subst a'.
  pose proof Hs as (S1 & S2 & S3 & S4). rewrite Hd. cbn [dsize names num_channels l_dsize l_names l_nc].
  assert (Hcx : match a_c x with Some n => n | None => 1 end = n).
  { rewrite Hc in S3. unfold atleast3 in S3. destruct (a_c x) eqn:E; cbn [a_c] in S3; congruence. }
  rewrite Hcx. split; [reflexivity|]. split; [reflexivity|]. split; [symmetry; exact Hn|].
  assert (Sh : a_h x = a_h a0 /\ a_w x = a_w a0) by (rewrite S1, S2; unfold atleast3; destruct (a_c x); split; reflexivity). destruct Sh as (Sh1 & Sh2).
  eexists. cbn [finalize]. unfold finalize_leaf, with_data. cbn [l_nc l_dsize l_kind l_id w_flat w_pix]. rewrite Z.eqb_refl.
  split; [reflexivity|].
  match goal with |- same_array ?y x /\ _ => assert (E : same_array y x) end.
  { split; [cbn; congruence|]. split; [cbn; congruence|]. split; [cbn; destruct (a_c x); congruence|]. intros. cbn [a_pix]. reflexivity. }
  split; [exact E|]. intros a2 H2. rewrite (unflat_finalize W t Hf a2 H2) in H0. injection H0 as H0. rewrite H0.
  destruct Hs as (T1 & T2 & T3 & T4). unfold atleast3 at 1. cbn [a_c]. unfold same_array.
  destruct (a_c x) as [m|] eqn:Ex; cbn [a_h a_w a_c a_pix]; (split; [reflexivity|]); (split; [reflexivity|]).
  - assert (m = n) by (unfold atleast3 in T3; rewrite Ex in T3; congruence). subst m.
    split; [exact Hc|]. unfold atleast3 in T4. rewrite Ex in T4. exact T4.
  - split; [rewrite T3; unfold atleast3; rewrite Ex; reflexivity|]. unfold atleast3 in T4. rewrite Ex in T4. exact T4.
Qed.
Print Assumptions C78_evaluate_flat.

(* a grey image stays H x W *)
Example C78_flat_case : exists a t', built (img 1 5 4 ["a"%string] None) /\ flat_one flat_world (img 1 5 4 ["a"%string] None) /\
  evaluate flat_world axis_oracle 30 99 (img 1 5 4 ["a"%string] None) = Ok (a, t') /\ a_c a = None /\
  rmap (fun a1 => (a_h a1, a_w a1, a_c a1, a_pix a1 2 3 0)) (finalize (with_data flat_world 99 a) t') = Ok (4, 5, None, 23).
Proof.
  eexists _, _. split; [split; [apply made_img; lia|exact I]|]. split; [intros _; reflexivity|]. split; [vm_compute; reflexivity|]. split; reflexivity.
Qed.

(** C79: an empty request.  On an image it keeps the size and has no bands; on a
    concatenation it loses the size and cannot be finalized. *)
Theorem C79_empty_request_partial : forall {V} (W : world V) F, finalizer W F ->
  forall t a nl lazy p, made t -> all_3d W t -> is_concat t = false -> F t = Ok a -> names t = Some nl ->
  exists t' a', take_named t lazy false p [] = Ok t' /\ F t' = Ok a' /\ dsize t' = dsize t /\
    names t' = Some [] /\ same_canvas a a' /\ a_c a' = Some 0.
Proof.
  intros V W F HF t a nl lazy p Hm H3 Hi Ha Hnl. destruct (made_ok _ Hm) as [Hw Ht].
  destruct (wf_meta _ Hw) as (m & Hmc & _ & _).
  destruct (crop_bands W F HF t a [] m nl Hw Ht H3 Ha Hnl Hmc (Forall_nil _)) as (t' & a' & Ht' & Ha' & (A1 & A2 & A3 & _)).
  exists t', a'. split.
  - destruct t; try discriminate; cbn [take_named]; rewrite Hnl, Bool.andb_false_r; exact Ht'.
  - split; [exact Ha'|].
    assert (Hci : ci_ok (num_channels t) (Some [])) by (intros n _; constructor).
    destruct (mkCrop_spec _ _ _ _ _ Hw Hmc Hci Ht') as (w & h & ys & xs & nm & nc & Hd & -> & Hwc & -> & ->).
    split; [cbn [dsize]; rewrite Hd; unfold iv_len; cbn; do 2 f_equal; lia|].
    split; [rewrite (crop_names _ _ _ _ _ _ _ Hwc), Hnl; reflexivity|]. split; [split; congruence|exact A3].
Qed.
Print Assumptions C79_empty_request_partial.

Theorem C79_empty_request_refuted : exists t', made tk_cat /\ dsize tk_cat = Some (6, 5) /\
  take_named tk_cat true false ReturnNan [] = Ok t' /\ dsize t' = None /\ finalize tk_world t' = Err ValueError.
Proof. eexists. split; [exact tk_made|]. split; [reflexivity|]. split; [vm_compute; reflexivity|]. split; vm_compute; reflexivity. Qed.
Print Assumptions C79_empty_request_refuted.

Example C79_case : made (img 1 6 5 ["a"; "b"]%string None) /\ is_concat (img 1 6 5 ["a"; "b"]%string None) = false /\
  rmap (fun t => (dsize t, names t)) (take_named (img 1 6 5 ["a"; "b"]%string None) true false ReturnNan []) = Ok (Some (6, 5), Some []).
Proof. split; [apply made_img; lia|]. split; reflexivity. Qed.

(** C80: an unknown missing_channel_policy.  It raises KeyError on a concatenation
    (unless the request is the channel spec itself) and on an image when a channel is
    missing; on an image that has all channels it is silently ignored. *)
Theorem C80_invalid_policy_partial : forall t lazy same req nl, names t = Some nl ->
  spec_eqb same nl req = false -> is_concat t = true \/ ~ incl req nl ->
  take_named t lazy same OtherP req = Err KeyError.
Proof.
  intros t lazy same req nl Hnl Hs [Hc|Hni].
  - destruct t; try discriminate. eapply take_named_invalid_concat; eassumption.
  - destruct (is_concat t) eqn:E.
    + destruct t; try discriminate. eapply take_named_invalid_concat; eassumption.
    + eapply take_named_invalid_image; eassumption.
Qed.
Print Assumptions C80_invalid_policy_partial.

Theorem C80_invalid_policy_refuted : forall {V} (W : world V) F, finalizer W F ->
  forall t a lazy same req nl, made t -> all_3d W t -> F t = Ok a -> is_concat t = false ->
  names t = Some nl -> req <> [] -> incl req nl -> exists t', take_named t lazy same OtherP req = Ok t'.
Proof.
  intros V W F HF t a lazy same req nl Hm H3 Ha Hc Hnl Hreq Hin. destruct (made_ok _ Hm) as [Hw Ht].
  destruct (take_named_bands W F HF t a lazy same OtherP req nl Hw Ht H3 Ha Hnl Hreq) as (t' & a' & H1 & _); [right; auto|].
  eauto.
Qed.
Print Assumptions C80_invalid_policy_refuted.

Example C80_case : take_named tk_cat true false OtherP ["a"%string] = Err KeyError /\
  exists t', take_named (img 1 6 5 ["a"; "b"]%string None) true false OtherP ["a"%string] = Ok t'.
Proof. split; [reflexivity|]. eexists. reflexivity. Qed.
