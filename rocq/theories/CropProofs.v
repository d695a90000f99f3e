(* Cropping, fusing crops, concatenation and dequantization at pixel level; the
   shapes-only finalizer. *)
From Verif Require Import Py PyProofs GeomModel GeomProofs GraphModel GraphSpec GraphBase GraphTake GraphSize GraphTotal FinalModel FinalSpec FinalProofs TakeModel TakeSpec TakeProofs.
From Coq Require Import ZifyBool ZifyNat.
Local Open Scope Z_scope.

(** ** Slices of index lists *)

Lemma zseq_nth_some n k : (k < n)%nat -> nth_error (zseq n) k = Some (Z.of_nat k).
Proof.
  intros H. unfold zseq. rewrite nth_error_map, nth_error_nth' with (d:=0%nat) by (rewrite seq_length; exact H).
  rewrite seq_nth by exact H. reflexivity.
Qed.

Lemma nth_error_firstn' {A} (l : list A) n k : nth_error (firstn n l) k = if (k <? n)%nat then nth_error l k else None.
Proof.
  revert l k. induction n as [|n IH]; intros l k; [destruct k; reflexivity|].
  destruct l as [|x l]; [destruct k as [|k]; [reflexivity|]; cbn [firstn nth_error]; now destruct (S k <? S n)%nat|].
  destruct k as [|k]; [reflexivity|]. cbn [firstn nth_error]. rewrite IH. reflexivity.
Qed.

Lemma nth_error_skipn' {A} (l : list A) n k : nth_error (skipn n l) k = nth_error l (n + k).
Proof. revert l. induction n as [|n IH]; intros [|x l]; cbn; auto. now destruct k. Qed.

(* the Python slice and the clipped interval agree *)
Lemma wrap_clip_sliced {A} (l : list A) s i : wrap_clip (Z.of_nat (List.length l)) s = Ok i ->
  Z.of_nat (List.length (sliced s l)) = iv_len i /\
  forall k, Z.of_nat k < iv_len i -> nth_error (sliced s l) k = nth_error l (Z.to_nat (fst i + Z.of_nat k)).
Proof.
  intros H. pose proof (wrap_clip_bounds _ _ _ (Nat2Z.is_nonneg _) H) as Hb.
  assert (E : sliced s l = firstn (Z.to_nat (snd i - fst i)) (skipn (Z.to_nat (fst i)) l)).
  { unfold sliced, py_slice, slice_bound. unfold wrap_clip in H. cbv beta zeta in H.
    destruct s as [[a|] [b|]]; cbn [fst snd] in *;
    match type of H with (if ?x then _ else _) = _ => destruct x eqn:E; [discriminate|] end; injection H as <-; cbn [fst snd] in *; repeat match goal with H : context [if ?x <? 0 then _ else _] |- _ => destruct (x <? 0) eqn:? end;
    repeat match goal with |- context [if ?x <? 0 then _ else _] => destruct (x <? 0) eqn:? end; apply (f_equal2 (fun x y => firstn x (skipn y l))); lia. }
  rewrite E. unfold iv_len. split.
  - rewrite firstn_length, skipn_length. lia.
  - intros k Hk. rewrite nth_error_firstn'. destruct (k <? Z.to_nat (snd i - fst i))%nat eqn:Ek; [|lia].
    rewrite nth_error_skipn'. f_equal. lia.
Qed.

Lemma upto_length n : 0 <= n -> Z.of_nat (List.length (upto n)) = n.
Proof. intros H. unfold upto. rewrite zseq_length. lia. Qed.

Lemma upto_nth n k r : nth_error (upto n) k = Some r -> r = Z.of_nat k.
Proof. apply zseq_nth. Qed.

Lemma sliced_upto n s i : 0 <= n -> wrap_clip n s = Ok i ->
  Z.of_nat (List.length (sliced s (upto n))) = iv_len i /\
  forall k r, nth_error (sliced s (upto n)) k = Some r -> r = fst i + Z.of_nat k.
Proof.
  intros Hn H. rewrite <- (upto_length n Hn) in H at 1. pose proof (wrap_clip_bounds _ _ _ (Nat2Z.is_nonneg _) H) as Hb.
  destruct (wrap_clip_sliced _ _ _ H) as [H1 H2]. split; [exact H1|].
  intros k r Hk. assert (Hlt : (k < List.length (sliced s (upto n)))%nat) by (apply nth_error_Some; congruence).
  rewrite H2 in Hk by lia. apply upto_nth in Hk. lia.
Qed.

Section Crop.
Context {V : Type} (W : world V) (F : node -> result (array V)) (HF : finalizer W F).

(* what one crop shows *)
Lemma crop_selection s ys xs ci c a : wf s -> tight s -> all_3d W s -> valid_bands s ci -> F s = Ok a ->
  mkCrop s (Some (ys, xs)) ci = Ok c ->
  exists n a', num_channels s = Some n /\ F c = Ok a' /\
    forall bands, items ci (upto n) bands ->
    selection a (sliced ys (upto (a_h a))) (sliced xs (upto (a_w a))) bands a'.
Proof.
  intros Hw Ht H3 Hv Ha Hc. destruct (F_shaped W F HF _ _ Hw Ht H3 Ha) as (Hd & n & Hn & Hcn & Hn0).
  destruct (tight_dsize _ Ht) as (w & h & Hd' & Hw0 & Hh0). rewrite Hd in Hd'. injection Hd' as <- <-.
  apply mkCrop_shape in Hc as (w' & h' & y & x & nm & nc & Hd'' & -> & Hy & Hx).
  rewrite Hd in Hd''. injection Hd'' as <- <-.
  pose proof (wrap_clip_bounds _ _ _ Hh0 Hy) as By. pose proof (wrap_clip_bounds _ _ _ Hw0 Hx) as Bx.
  destruct (sliced_upto _ _ _ Hh0 Hy) as [Ly Ny]. destruct (sliced_upto _ _ _ Hw0 Hx) as [Lx Nx].
  exists n. rewrite (f_crop _ _ HF), Ha. cbn [bind]. unfold index_array. rewrite !axis_slice_in by lia.
  destruct ci as [l|].
  - destruct (Hv n l Hn eq_refl) as [_ Hl]. rewrite Hcn, (mapR_np_index _ _ Hl). cbn [bind rmap].
    eexists. split; [exact Hn|]. split; [reflexivity|]. intros bands Hb. unfold selection.
    cbn [atleast3 a_h a_w a_c a_pix]. rewrite Ly, Lx.
    assert (Eb : bands = l).
    { clear -Hb Hl. cbn in Hb. induction Hb as [|i b l bs Hi Hb IH]; [reflexivity|]. inversion Hl; subst.
      f_equal; [|auto]. apply upto_nth in Hi. lia. }
    subst bands. split; [reflexivity|]. split; [reflexivity|]. split; [reflexivity|].
    intros i j k r c b Hi Hj Hk. apply Ny in Hi. apply Nx in Hj. subst r c.
    rewrite Nat2Z.id, (nth_error_nth _ _ _ Hk). f_equal; lia.
  - cbn [rmap bind]. eexists. split; [exact Hn|]. split; [reflexivity|]. intros bands ->. unfold selection, atleast3.
    cbn [a_c]. rewrite Hcn. cbn [a_h a_w a_c a_pix]. rewrite Ly, Lx, upto_length by lia.
    split; [reflexivity|]. split; [reflexivity|]. split; [reflexivity|].
    intros i j k r c b Hi Hj Hk. apply Ny in Hi. apply Nx in Hj. apply upto_nth in Hk. subst r c b. f_equal; lia.
Qed.

End Crop.

Lemma sliced_map {A B} (f : A -> B) s l : sliced s (map f l) = map f (sliced s l).
Proof. unfold sliced, py_slice. now rewrite map_length, skipn_map, firstn_map. Qed.

Lemma sliced_nth {A} s (l : list A) k x : nth_error (sliced s l) k = Some x ->
  exists i, nth_error (sliced s (upto (Z.of_nat (List.length l)))) k = Some (Z.of_nat i) /\ nth_error l i = Some x.
Proof.
  intros H.
  assert (E : l = map (fun i => nth (Z.to_nat i) l x) (upto (Z.of_nat (List.length l)))).
  { unfold upto. rewrite Nat2Z.id. apply nth_ext with (d := x) (d' := x).
    - now rewrite map_length, zseq_length.
    - intros n Hn. rewrite nth_indep with (d' := (fun i => nth (Z.to_nat i) l x) (Z.of_nat (List.length l))) at 1 by exact Hn.
      symmetry. apply nth_error_nth. rewrite nth_error_map, zseq_nth_some by exact Hn. cbn. f_equal. rewrite Nat2Z.id. now apply nth_indep. }
  rewrite E in H at 1. rewrite sliced_map, nth_error_map in H.
  destruct (nth_error (sliced s (upto (Z.of_nat (List.length l)))) k) as [i|] eqn:Ei; [|discriminate].
  injection H as H.
  assert (Hin : In i (upto (Z.of_nat (List.length l)))).
  { apply nth_error_In in Ei. unfold sliced, py_slice in Ei.
    match type of Ei with In _ (firstn ?n (skipn ?m ?u)) =>
      assert (G : In i u) by (rewrite <- (firstn_skipn m u); apply in_or_app; right;
                              rewrite <- (firstn_skipn n (skipn m u)); apply in_or_app; now left) end. exact G. }
  unfold upto in Hin. rewrite Nat2Z.id in Hin. apply zseq_In in Hin.
  exists (Z.to_nat i). rewrite Z2Nat.id by lia. split; [reflexivity|].
  rewrite <- H. apply nth_error_nth'. lia.
Qed.

Lemma sliced_length {A B} s (l : list A) (l' : list B) : List.length l = List.length l' ->
  List.length (sliced s l) = List.length (sliced s l').
Proof. intros H. unfold sliced, py_slice. rewrite !firstn_length, !skipn_length, H. reflexivity. Qed.

Lemma items_nth {A} ci (l l' : list A) k x : items ci l l' -> nth_error l' k = Some x ->
  match ci with
  | None => nth_error l k = Some x
  | Some idxs => exists i, nth_error idxs k = Some i /\ nth_error l (Z.to_nat i) = Some x
  end.
Proof.
  destruct ci as [idxs|]; cbn; [|now intros ->]. intros H. revert k. induction H as [|i y idxs l' Hi H IH]; intros [|k]; cbn; try discriminate.
  - intros [= ->]. eauto.
  - apply IH.
Qed.

(* selections compose *)
Lemma selection_trans {V} (a a1 a2 : array V) R C B ys xs ci n B2 :
  selection a R C B a1 -> a_c a1 = Some n ->
  (forall l, ci = Some l -> Forall (fun i => 0 <= i < n) l) ->
  (forall bands, items ci (upto n) bands -> selection a1 (sliced ys (upto (a_h a1))) (sliced xs (upto (a_w a1))) bands a2) ->
  items ci B B2 -> selection a (sliced ys R) (sliced xs C) B2 a2.
Proof.
  intros (H1 & H2 & H3 & H4) Hn Hci H HB. rewrite H3 in Hn. injection Hn as Hn.
  assert (Hb : exists bands, items ci (upto n) bands /\ List.length bands = List.length B2 /\
            forall k x, nth_error B2 k = Some x -> exists i, nth_error bands k = Some (Z.of_nat i) /\ nth_error B i = Some x).
  { destruct ci as [l|].
    - exists l. specialize (Hci l eq_refl). cbn in HB |- *. subst n. split; [|split].
      + clear -Hci. unfold upto. rewrite Nat2Z.id. induction Hci as [|i l Hi Hci IH]; [constructor|].
        constructor; [|now apply IH]. rewrite zseq_nth_some by lia. f_equal. lia.
      + clear -HB. induction HB; cbn; auto.
      + intros k x Hk. destruct (items_nth (Some l) B B2 k x HB Hk) as (i & Hi & Hx). exists (Z.to_nat i).
        rewrite Forall_forall in Hci. pose proof (Hci i (nth_error_In _ _ Hi)). rewrite Z2Nat.id by lia. auto.
    - cbn in HB. subst B2. exists (upto n). cbn. split; [reflexivity|]. subst n. unfold upto. rewrite Nat2Z.id, zseq_length.
      split; [reflexivity|]. intros k x Hk. exists k. split; [|exact Hk]. apply zseq_nth_some. apply nth_error_Some. congruence. }
  destruct Hb as (bands & Hb1 & Hb2 & Hb3). destruct (H _ Hb1) as (G1 & G2 & G3 & G4). rewrite H1 in G1, G4. rewrite H2 in G2, G4.
  split; [|split; [|split]].
  - rewrite G1. f_equal. apply sliced_length. unfold upto. now rewrite zseq_length, Nat2Z.id.
  - rewrite G2. f_equal. apply sliced_length. unfold upto. now rewrite zseq_length, Nat2Z.id.
  - rewrite G3. now rewrite Hb2.
  - intros i j k r c b Hi Hj Hk. apply sliced_nth in Hi as (i' & Hi & Hr). apply sliced_nth in Hj as (j' & Hj & Hc).
    destruct (Hb3 _ _ Hk) as (k' & Hk' & Hbb). rewrite (G4 _ _ _ _ _ _ Hi Hj Hk'). now apply H4.
Qed.

Lemma Forall2_len {A B} (R : A -> B -> Prop) l l' : Forall2 R l l' -> List.length l = List.length l'.
Proof. induction 1; cbn; auto. Qed.

Lemma app_inv_length {A} (a b a' b' : list A) : (a ++ b = a' ++ b')%list -> List.length a = List.length a' -> a = a' /\ b = b'.
Proof.
  revert a'. induction a as [|x a IH]; intros [|y a']; cbn; try discriminate; auto.
  intros [= -> H] [= Hl]. destruct (IH _ H Hl) as [-> ->]. auto.
Qed.

(** ** Fusing crops *)

Section Fuse.
Context {V : Type} (W : world V) (F : node -> result (array V)) (HF : finalizer W F).

Lemma crop_pixels s ys xs ci d nm nc a :
  wf (Crop s ys xs ci d nm nc) -> tight (Crop s ys xs ci d nm nc) -> all_3d W s -> F s = Ok a ->
  exists a' m, F (Crop s ys xs ci d nm nc) = Ok a' /\ a_h a' = iv_len ys /\ a_w a' = iv_len xs /\
    a_c a' = Some m /\ num_channels (Crop s ys xs ci d nm nc) = Some m /\
    forall r c k b, 0 <= k < m -> selects ci k b -> a_pix a' r c k = a_pix a (r + fst ys) (c + fst xs) b.
Proof.
  intros Hw Ht H3 Ha. destruct (F_shaped W F HF s a (proj1 Hw) (proj1 Ht) H3 Ha) as (Hd & n & Hn & Hcn & Hn0).
  pose proof (wf_crop_ci _ _ _ _ _ _ _ Hw) as Hin. pose proof (crop_nc _ _ _ _ _ _ _ Hw) as Hnc.
  destruct Ht as (_ & _ & -> & w & h & Hd' & B1 & B2 & B3 & B4). rewrite Hd in Hd'. injection Hd' as <- <-.
  rewrite (f_crop _ _ HF), Ha. cbn [bind]. unfold index_array. rewrite !axis_slice_in by lia. rewrite Hnc.
  destruct ci as [l|].
  - assert (Hl : Forall (fun i => 0 <= i < n) l) by (apply Hin; exact Hn).
    rewrite Hcn, (mapR_np_index _ _ Hl). cbn [bind rmap atleast3 a_c]. do 2 eexists. split; [reflexivity|].
    cbn [a_h a_w a_c a_pix sel_nc]. do 4 (split; [reflexivity|]).
    intros r c k b Hk [_ Hb]. now rewrite (nth_error_nth _ _ _ Hb).
  - cbn [rmap bind]. do 2 eexists. split; [reflexivity|]. unfold atleast3. cbn [a_c]. rewrite Hcn. cbn [a_h a_w a_c a_pix sel_nc].
    do 3 (split; [reflexivity|]). split; [exact Hn|]. intros r c k b _ ->. reflexivity.
Qed.

Lemma selects_total ci m n k : ci_ok (Some n) ci -> sel_nc (Some n) ci = Some m -> 0 <= k < m ->
  exists b, selects ci k b /\ 0 <= b < n.
Proof.
  intros Hci Hm Hk. destruct ci as [l|]; cbn in *.
  - injection Hm as <-. destruct (nth_error l (Z.to_nat k)) as [b|] eqn:E; [|apply nth_error_None in E; lia].
    exists b. split; [auto with zarith|]. specialize (Hci n eq_refl). unfold in_range in Hci. rewrite Forall_forall in Hci.
    apply Hci. eapply nth_error_In; exact E.
  - injection Hm as <-. exists k. auto.
Qed.

Lemma fuse_idxs_total ci1 ci n : ci_ok (sel_nc (Some n) ci1) ci -> exists nci, fuse_idxs ci1 ci = Ok nci.
Proof.
  intros Hci. unfold fuse_idxs. destruct ci as [oi|], ci1 as [ii|]; eauto.
  assert (R : Forall (fun i => 0 <= i < Z.of_nat (List.length ii)) oi) by (apply Hci; reflexivity).
  assert (G : exists r, mapR (py_get ii) oi = Ok r).
  { clear -R. induction R as [|i oi Hi Fo (r & IH)]; cbn; [eauto|].
    destruct (nth_error_in_range ii i Hi) as (a & Ha).
    unfold py_get at 1. destruct (i <? 0) eqn:Ei; [lia|]. cbv zeta. rewrite Ei, Ha. cbn. rewrite IH. cbn. eauto. }
  destruct G as (r & ->). cbn. eauto.
Qed.

Lemma fuse_same s ys1 xs1 ci1 d1 nm1 nc1 ys xs ci d nm nc a :
  let c1 := Crop s ys1 xs1 ci1 d1 nm1 nc1 in
  let c2 := Crop c1 ys xs ci d nm nc in
  wf c2 -> tight c2 -> all_3d W s -> F s = Ok a ->
  exists f a2 a3, fuse_crops s ys1 xs1 ci1 ys xs ci = Ok f /\
    F c2 = Ok a2 /\ F f = Ok a3 /\ same_array a2 a3 /\
    names f = names c2 /\ num_channels f = num_channels c2 /\ dsize f = dsize c2 /\
    exists ys' xs' ci' d' nm' nc', f = Crop s ys' xs' ci' d' nm' nc' /\
      fst ys1 <= fst ys' /\ snd ys' <= snd ys1 /\ fst xs1 <= fst xs' /\ snd xs' <= snd xs1.
Proof.
  intros c1 c2 Hw Ht H3 Ha. subst c1 c2.
  assert (Hw1 : wf (Crop s ys1 xs1 ci1 d1 nm1 nc1)) by apply Hw. assert (Hws : wf s) by apply Hw1.
  assert (Ht1 : tight (Crop s ys1 xs1 ci1 d1 nm1 nc1)) by apply Ht. assert (Hts : tight s) by apply Ht1.
  destruct (wf_meta _ Hws) as (m & Hm & Hm0 & Hlen).
  pose proof (wf_crop_ci _ _ _ _ _ _ _ Hw1) as Hc1. pose proof (wf_crop_ci _ _ _ _ _ _ _ Hw) as Hc2.
  pose proof (crop_nc _ _ _ _ _ _ _ Hw1) as Hnc1. pose proof (crop_nc _ _ _ _ _ _ _ Hw) as Hnc2.
  rewrite Hnc1 in Hc2, Hnc2. rewrite Hm in Hc1, Hc2, Hnc1, Hnc2.
  destruct (fuse_idxs_total ci1 ci m Hc2) as (nci & Hf).
  destruct (fuse_idxs_ok s ci1 ci nci m Hm) as (Hci & Hnc & Hnm & Hsel); [now rewrite Hm|now rewrite Hm|exact Hf|].
  assert (Hdt : dsize s = dsize s /\ exists w h, dsize s = Some (w, h)) by (destruct (tight_dsize _ Hts) as (w & h & E & _); eauto).
  destruct Hdt as (_ & w & h & Hd).
  assert (Hcrop : exists f, mkCrop s (Some (fuse_axis ys1 ys, fuse_axis xs1 xs)) nci = Ok f).
  { destruct Ht as ((_ & _ & -> & w1 & h1 & Hd1 & B1 & B2 & B3 & B4) & _ & -> & w2 & h2 & Hd2 & C1 & C2 & C3 & C4).
    rewrite Hd in Hd1. injection Hd1 as <- <-. cbn [dsize] in Hd2. injection Hd2 as <- <-.
    unfold mkCrop. rewrite Hd, !fuse_axis_in by (unfold iv_len in *; lia). cbn [bind].
    destruct nci as [l|]; [|cbn; eexists; reflexivity]. specialize (Hci m Hm). destruct (names s) as [nl|] eqn:En; [|cbn; eexists; reflexivity].
    destruct (select_total nl l) as (n' & ->); [now rewrite (Hlen nl eq_refl)|]. cbn [bind]. eexists; reflexivity. }
  destruct Hcrop as (f & Hcrop).
  assert (Hfuse : fuse_crops s ys1 xs1 ci1 ys xs ci = Ok f) by (unfold fuse_crops; rewrite Hf; exact Hcrop).
  destruct (fuse_crops_kept _ _ _ _ _ _ _ _ _ _ _ _ _ _ Ht Hfuse) as (Hdf & Htf & _).
  destruct (mkCrop_spec _ _ _ _ _ Hws Hm Hci Hcrop) as (w' & h' & y & x & nm' & nc' & Hd' & Ef & Hwf & Hy & Hx).
  subst f. rewrite Hd in Hd'. injection Hd' as <- <-.
  destruct (crop_pixels _ _ _ _ _ _ _ _ Hw1 Ht1 H3 Ha) as (a1 & m1 & Ha1 & H1h & H1w & H1c & H1n & H1p).
  destruct (crop_pixels _ _ _ _ _ _ _ _ Hw Ht H3 Ha1) as (a2 & m2 & Ha2 & H2h & H2w & H2c & H2n & H2p).
  destruct (crop_pixels _ _ _ _ _ _ _ _ Hwf Htf H3 Ha) as (a3 & m3 & Ha3 & H3h & H3w & H3c & H3n & H3p).
  assert (Hnames : names (Crop s y x nci (iv_len x, iv_len y) nm' nc') =
            names (Crop (Crop s ys1 xs1 ci1 d1 nm1 nc1) ys xs ci d nm nc)).
  { rewrite (crop_names _ _ _ _ _ _ _ Hwf), (crop_names _ _ _ _ _ _ _ Hw), (crop_names _ _ _ _ _ _ _ Hw1).
    symmetry. apply Hnm. intros l Hl. rewrite (Hlen _ Hl). reflexivity. }
  assert (Hnum : num_channels (Crop s y x nci (iv_len x, iv_len y) nm' nc') =
            num_channels (Crop (Crop s ys1 xs1 ci1 d1 nm1 nc1) ys xs ci d nm nc)).
  { rewrite (crop_nc _ _ _ _ _ _ _ Hwf), Hnc2, <- Hnc, Hm. reflexivity. }
  exists (Crop s y x nci (iv_len x, iv_len y) nm' nc'), a2, a3.
  split; [exact Hfuse|]. split; [exact Ha2|]. split; [exact Ha3|].
  destruct Ht as ((_ & _ & -> & w1 & h1 & Hd1 & B1 & B2 & B3 & B4) & _ & -> & w2 & h2 & Hd2 & C1 & C2 & C3 & C4).
  rewrite Hd in Hd1. injection Hd1 as <- <-. cbn [dsize] in Hd2. injection Hd2 as <- <-.
  rewrite fuse_axis_in in Hy by (unfold iv_len in *; lia). rewrite fuse_axis_in in Hx by (unfold iv_len in *; lia).
  injection Hy as <-. injection Hx as <-. unfold iv_len in *. cbn [fst snd] in *.
  assert (m3 = m2) by congruence. subst m3.
  split; [|split; [exact Hnames|split; [exact Hnum|split; [exact Hdf|]]]].
  - split; [lia|]. split; [lia|]. split; [congruence|]. intros r c k Hr Hc Hk. rewrite H2c in Hk.
    destruct (selects_total ci m2 m1 k) as (b1 & Hb1 & Hb1r); [rewrite <- H1n, Hnc1; exact Hc2|rewrite <- H1n, Hnc1, <- Hnc2; exact H2n|exact Hk|].
    destruct (selects_total ci1 m1 m b1) as (b & Hb & Hbr); [exact Hc1|rewrite <- Hnc1; exact H1n|exact Hb1r|].
    rewrite (H2p _ _ _ _ Hk Hb1), (H1p _ _ _ _ Hb1r Hb), (H3p _ _ _ _ Hk (Hsel _ _ _ Hb1 Hb)). f_equal; lia.
  - do 6 eexists. split; [reflexivity|]. cbn [fst snd]. lia.
Qed.

(** ** Dequantization *)

Lemma dq_index q a ys xs ci n : a_c a = Some n ->
  index_array (dq_array W q a) ys xs ci = rmap (dq_array W q) (index_array a ys xs ci).
Proof.
  intros Hc. destruct q as [i|]; cbn [dq_array]; [|now destruct (index_array a ys xs ci)].
  unfold index_array. cbn [a_h a_w a_c a_pix]. destruct (axis_slice (a_h a) ys) as [y0 h], (axis_slice (a_w a) xs) as [x0 w].
  destruct ci as [l|]; [|reflexivity]. rewrite Hc. destruct (mapR (np_index n) l); reflexivity.
Qed.

Lemma dequant_crop s q d ys xs ci d' nm nc d'' nm' nc' dd a : wf s -> tight s -> all_3d W s -> F s = Ok a ->
  F (Crop (Dequant s q d) ys xs ci d' nm nc) = F (Dequant (Crop s ys xs ci d'' nm' nc') q dd).
Proof.
  intros Hw Ht H3 Ha. pose proof (F_shaped W F HF s a Hw Ht H3 Ha) as Hs.
  rewrite (f_crop _ _ HF), !(f_dequant _ _ HF), (f_crop _ _ HF), Ha. cbn [bind rmap].
  rewrite (shaped_c3 _ _ Hs). destruct Hs as (_ & n & _ & Hc & _).
  rewrite (dq_index _ _ _ _ _ _ Hc). destruct (index_array a ys xs ci) as [x|]; [|reflexivity]. cbn. f_equal.
  destruct q; unfold dq_array, atleast3; cbn; destruct (a_c x) eqn:E; cbn; rewrite ?E; reflexivity.
Qed.


Lemma has_same (a b : array V) w h bs : has a w h bs -> has b w h bs -> same_array a b.
Proof.
  intros (A1 & A2 & A3 & A4) (B1 & B2 & B3 & B4). split; [congruence|]. split; [congruence|]. split; [congruence|].
  intros r c k Hr Hc Hk. rewrite A3 in Hk.
  destruct (nth_error bs (Z.to_nat k)) as [x|] eqn:E; [|apply nth_error_None in E; lia].
  pose proof (A4 _ _ r c E ltac:(lia) ltac:(lia)) as G1. pose proof (B4 _ _ r c E ltac:(lia) ltac:(lia)) as G2.
  rewrite Z2Nat.id in G1, G2 by lia. congruence.
Qed.

Definition dq_value (q : option Z) (v : V) : V := match q with Some i => w_dq W i v | None => v end.

Lemma has_dq q (a : array V) w h bs : has a w h bs ->
  has (dq_array W q a) w h (map (fun (b : @band V) r c => dq_value q (b r c)) bs).
Proof.
  intros (A1 & A2 & A3 & A4). destruct q as [i|]; unfold has; cbn [dq_array a_w a_h a_c a_pix dq_value]; rewrite map_length.
  - split; [exact A1|]. split; [exact A2|]. split; [exact A3|]. intros k b r c Hk Hr Hc.
    rewrite nth_error_map in Hk. destruct (nth_error bs k) as [b0|] eqn:E; [|discriminate].
    assert (Eb : b = fun r c => w_dq W i (b0 r c)) by (cbn in Hk; congruence). subst b. cbn. f_equal. auto.
  - split; [exact A1|]. split; [exact A2|]. split; [exact A3|]. intros k b r c Hk Hr Hc.
    rewrite nth_error_map in Hk. destruct (nth_error bs k) as [b0|] eqn:E; [|discriminate].
    assert (Eb : b = fun r c => b0 r c) by (cbn in Hk; congruence). subst b. auto.
Qed.

Lemma dequant_concat ps d q dd d' a : wf (Concat ps d) -> tight (Concat ps d) -> all_3d W (Concat ps d) ->
  F (Concat ps d) = Ok a ->
  exists x y, F (Dequant (Concat ps d) q dd) = Ok x /\ F (Concat (map (fun p => mkDequant p q) ps) d') = Ok y /\ same_array x y.
Proof.
  intros Hw Ht H3 Ha. destruct (concat_parts W F HF _ _ _ Hw Ht H3 Ha) as (xs & bss & Fx & Fs & Fb & Hhas).
  pose proof (F_shaped W F HF _ _ Hw Ht H3 Ha) as Hsh.
  rewrite (f_dequant _ _ HF), Ha, (f_concat _ _ HF). cbn [rmap]. rewrite (shaped_c3 _ _ Hsh).
  assert (G : mapR F (map (fun p => mkDequant p q) ps) = Ok (map (dq_array W q) xs)).
  { rewrite mapR_map. clear -Fx Fs HF. revert Fs. induction Fx as [|p x ps xs Hp Fx IH]; intros Fs; [reflexivity|].
    inversion Fs; subst. cbn. unfold mkDequant at 1. rewrite (f_dequant _ _ HF), Hp. cbn [rmap bind].
    rewrite IH by assumption. cbn. now rewrite (shaped_c3 p x) by assumption. }
  rewrite G. cbn [bind].
  assert (Hb : Forall2 (fun x b => has x (a_w a) (a_h a) b) (map (dq_array W q) xs)
             (map (map (fun (b : @band V) r c => dq_value q (b r c))) bss)).
  { clear -Fb. induction Fb; cbn; constructor; auto. now apply has_dq. }
  destruct (fun H => has_stack (map (dq_array W q) xs) _ _ _ H Hb) as (y & Hy & Hhy).
  { intros E. destruct xs; [|discriminate]. inversion Fx; subst. apply tight_concat in Ht as (Hne & _). congruence. }
  eexists. exists y. split; [reflexivity|]. split; [exact Hy|].
  eapply has_same; [apply has_dq; exact Hhas|]. now rewrite concat_map.
Qed.

(** ** Concatenation *)

Lemma concat_band ps1 p ps2 d a x off : let t := Concat (ps1 ++ p :: ps2) d in
  wf t -> tight t -> all_3d W t -> F t = Ok a -> F p = Ok x ->
  sum_opt (map num_channels ps1) = Some off ->
  same_canvas a x /\ exists n, num_channels p = Some n /\ a_c x = Some n /\
    forall j, 0 <= j < n -> band_is a (off + j) x j.
Proof.
  intros t Hw Ht H3 Ha Hx Hoff. subst t.
  destruct (concat_parts W F HF _ _ _ Hw Ht H3 Ha) as (xs & bss & Fx & Fs & Fb & Hhas).
  apply Forall2_app_inv_l in Fx as (xs1 & xr & Fx1 & Fxr & ->). inversion Fxr as [|? x' ? xs2 Hx' Fx2]; subst.
  assert (x' = x) by congruence. subst x'.
  apply Forall2_app_inv_l in Fs as (ys1 & yr & Fs1 & Fsr & E). inversion Fsr as [|? x' ? ys2 Hsx Fs2]; subst.
  assert (El : List.length xs1 = List.length ys1).
  { rewrite <- (Forall2_len _ _ _ Fx1), <- (Forall2_len _ _ _ Fs1). reflexivity. }
  apply app_inv_length in E; [|exact El]. destruct E as [<- E]. injection E as <- <-.
  apply Forall2_app_inv_l in Fb as (b1 & br & Fb1 & Fbr & ->). inversion Fbr as [|? bx ? b2 Hbx Fb2]; subst.
  destruct Hbx as (Xw & Xh & Xc & Xp). split; [split; congruence|].
  destruct Hsx as (_ & n & Hn & Hc & Hn0). exists n. split; [exact Hn|]. split; [exact Hc|].
  assert (Hlen : Z.of_nat (List.length (List.concat b1)) = off).
  { clear -Fs1 Fb1 Hoff. revert off b1 Fb1 Hoff. induction Fs1 as [|q y ps ys (_ & n & Hn & Hc & Hn0) Fs IH]; intros off b1 Fb1 Hoff; inversion Fb1; subst; cbn in *.
    - now injection Hoff.
    - rewrite Hn in Hoff. destruct (sum_opt (map num_channels ps)) as [o|] eqn:Eo; [|discriminate]. injection Hoff as <-.
      rewrite app_length, Nat2Z.inj_add. erewrite IH by (eassumption || reflexivity).
      match goal with H : has y _ _ ?l |- _ => destruct H as (_ & _ & Hcc & _) end. rewrite Hc in Hcc. injection Hcc as ->. lia. }
  intros j Hj r c [Hr Hcc]. assert (n = Z.of_nat (List.length bx)) by congruence.
  destruct (nth_error bx (Z.to_nat j)) as [b|] eqn:E; [|apply nth_error_None in E; lia].
  destruct Hhas as (_ & _ & _ & Hp). pose proof (Xp _ _ r c E ltac:(lia) ltac:(lia)) as G1. rewrite Z2Nat.id in G1 by lia.
  rewrite G1. replace (off + j) with (Z.of_nat (List.length (List.concat b1) + Z.to_nat j)) by lia.
  apply Hp; try lia. rewrite concat_app. cbn. rewrite nth_error_app2 by lia. rewrite nth_error_app1 by lia.
  rewrite <- E. f_equal. lia.
Qed.

End Fuse.

(** ** The shapes-only finalizer *)

Definition blank_world : world unit := World (fun _ _ _ _ => tt) (fun _ => false) tt tt (fun _ _ => tt).

Lemma blank_finalizer : finalizer blank_world blank.
Proof.
  split; intros; try reflexivity.
  - cbn [blank]. now rewrite mapR_map.
  - cbn [blank] in H. apply bind_ok in H as (b & Hb & H). injection H as <-. exists b. cbn. auto.
  - cbn in H. injection H as <-. cbn. auto.
Qed.

Lemma blank_3d t : all_3d blank_world t.
Proof.
  unfold all_3d. induction t as [l|ps d IH|s ys xs ci d nm nc IH|s M d al IH|s q d IH|s k d IH] using node_ind'; cbn; auto.
  { now destruct (l_kind l). }
  apply forall_parts_Forall. exact IH.
Qed.

Lemma blank_total t : wf t -> tight t -> exists a, blank t = Ok a.
Proof.
  induction t as [l|ps d IH|s ys xs ci d nm nc IH|s M d al IH|s q d IH|s k d IH] using node_ind'; intros Hw Ht.
  - destruct Hw as ((n & Hn & _) & _). cbn. unfold finalize_leaf. rewrite Hn. destruct (l_dsize l), (l_kind l); eauto.
  - pose proof (tight_dsize _ Ht) as (w & h & Hd & _). cbn in Hd. subst d.
    apply wf_concat in Hw as (Hw & _). apply tight_concat in Ht as (Hne & Ht & Hds).
    assert (G : exists l bss, mapR blank ps = Ok l /\ Forall2 (fun x b => has x w h b) l bss).
    { clear Hne. induction ps as [|p ps IHps]; [exists [], []; split; [reflexivity|constructor]|].
      inversion IH; inversion Hw; inversion Ht; inversion Hds; subst.
      destruct IHps as (l & bss & Hl & Hb); [assumption..|].
      match goal with H : wf p -> tight p -> _ |- _ => destruct H as (x & Hx); [assumption..|] end.
      destruct (F_shaped _ _ blank_finalizer p x) as (Hd & n & Hn & Hc & Hn0); [assumption|assumption|apply blank_3d|exact Hx|].
      exists (x :: l), (bands_of x n :: bss). cbn. rewrite Hx. cbn. rewrite Hl. split; [reflexivity|]. constructor; [|exact Hb].
      assert (a_w x = w /\ a_h x = h) as [<- <-] by (split; congruence). now apply has_self. }
    destruct G as (l & bss & Hl & Hb). rewrite (f_concat _ _ blank_finalizer), Hl. cbn [bind].
    destruct (has_stack l w h bss) as (x & Hx & _); [|exact Hb|eauto].
    intros ->. apply mapR_length in Hl. destruct ps; [congruence|discriminate].
  - destruct IH as (a & Ha); [apply Hw|apply Ht|].
    destruct (crop_pixels _ _ blank_finalizer _ _ _ _ _ _ _ _ Hw Ht (blank_3d s) Ha) as (a' & m & Ha' & _). eauto.
  - destruct IH as (a & Ha); [apply Hw|apply Ht|]. cbn. rewrite Ha. cbn. eauto.
  - destruct IH as (a & Ha); [apply Hw|apply Ht|]. cbn. rewrite Ha. cbn. eauto.
  - cbn. eauto.
Qed.
