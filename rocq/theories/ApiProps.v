(* Property theorems of the image operations crop, warp, scale, resize and
   get_overview as users call them.
   Vocabulary: [vis t x y c smp] says that point (x, y) of band c of the image t
   shows the sample smp of the source data (GraphSpec.v); sizes are (width,
   height). *)
From Verif Require Import Py PyProofs GeomModel GraphModel GraphSpec GraphBase ApiModel ApiSpec ApiProofs FinalModel GraphProps FinalSpec TakeSpec CropProofs GeomProofs.
Local Open Scope Q_scope.

(* three bands of 10 x 8 pixels *)
Definition ex_rgb : node := img 1 10 8 ["r"; "g"; "b"]%string None.

Lemma ex_rgb_wf : wf ex_rgb.
Proof. cbn. split; [|discriminate]. exists 3%Z. cbn. repeat split; lia. Qed.

(** C99: "crop with a band selection gives the selected bands" is false: in the
    padded mode (clip=False, wrap=False) the selection is ignored without error. *)
Theorem C99_crop_bands_refuted : exists s sl l t, wf s /\ num_channels s = Some 3%Z /\
  Forall (fun i => 0 <= i < 3)%Z l /\ List.length l = 1%nat /\
  api_crop s (Some sl) (Some l) false false 0 false = Ok t /\ num_channels t = Some 3%Z.
Proof.
  exists ex_rgb, (from_to 1 4, from_to 2 5), [1%Z]. eexists. split; [apply ex_rgb_wf|]. split; [reflexivity|].
  split; [repeat constructor; lia|]. split; [reflexivity|]. split; [vm_compute; reflexivity|]. reflexivity.
Qed.
Print Assumptions C99_crop_bands_refuted.

(* It holds in the default mode, for every window inside the image: the crop
   succeeds, and band c of the result is band l[c] of the source, with its name,
   moved by the corner of the window. *)
Theorem C99_crop_bands_partial : forall s m w h y0 y1 x0 x1 l,
  wf s -> num_channels s = Some m -> dsize s = Some (w, h) ->
  (0 <= y0 <= y1)%Z -> (y1 <= h)%Z -> (0 <= x0 <= x1)%Z -> (x1 <= w)%Z -> Forall (fun i => 0 <= i < m)%Z l ->
  exists t, api_crop s (Some (from_to y0 y1, from_to x0 x1)) (Some l) true true 0 false = Ok t /\
    dsize t = Some (x1 - x0, y1 - y0)%Z /\
    num_channels t = Some (Z.of_nat (List.length l)) /\
    (forall n, names s = Some n -> exists n', names t = Some n' /\
       forall c b, nth_error l c = Some b -> nth_error n' c = nth_error n (Z.to_nat b)) /\
    forall c b, nth_error l c = Some b -> forall x y smp,
      vis t x y (Z.of_nat c) smp <->
      inside (x1 - x0, y1 - y0)%Z x y /\ vis s (x + inject_Z x0) (y + inject_Z y0) b smp.
Proof. exact crop_bands. Qed.
Print Assumptions C99_crop_bands_partial.

Example C99_case : wf ex_rgb /\ num_channels ex_rgb = Some 3%Z /\ dsize ex_rgb = Some (10, 8)%Z /\
  exists t, api_crop ex_rgb (Some (from_to 1 4, from_to 2 10)) (Some [2; 0]%Z) true true 0 false = Ok t /\
    names t = Some ["b"; "r"]%string /\ dsize t = Some (8, 3)%Z.
Proof.
  split; [apply ex_rgb_wf|]. split; [reflexivity|]. split; [reflexivity|].
  eexists. split; [vm_compute; reflexivity|]. split; reflexivity.
Qed.

(* Any Python slices that select something, with missing, negative or too large
   bounds: the window is the rows and columns that l[a:b] selects from the
   indexes of the image. *)
Lemma sliced_ok n sl : (0 <= n)%Z -> sliced sl (upto n) <> [] -> exists i, wrap_clip n sl = Ok i.
Proof.
  intros Hn H. destruct (wrap_clip n sl) as [i|e] eqn:E; [eauto|exfalso]. apply H. clear H.
  pose proof (upto_length n Hn) as Hu. unfold wrap_clip in E. cbv beta zeta in E.
  match type of E with (if ?b then _ else _) = _ => destruct b eqn:Eb; [|discriminate] end. clear E. apply Z.ltb_lt in Eb.
  unfold sliced, py_slice, slice_bound. rewrite Hu.
  destruct sl as [[a|] [b|]]; cbn [fst snd] in *; try lia;
    repeat match goal with H : context [if (?x <? 0)%Z then _ else _] |- _ => destruct (Z.ltb_spec x 0) end;
    match goal with |- firstn ?k _ = [] => replace k with 0%nat by lia end; reflexivity.
Qed.

Theorem C99_any_window_partial : forall s m w h ys xs l,
  wf s -> num_channels s = Some m -> dsize s = Some (w, h) -> (0 <= w)%Z -> (0 <= h)%Z -> Forall (fun i => 0 <= i < m)%Z l ->
  sliced ys (upto h) <> [] -> sliced xs (upto w) <> [] ->
  exists t x0 y0, api_crop s (Some (ys, xs)) (Some l) true true 0 false = Ok t /\
    (forall k r, nth_error (sliced ys (upto h)) k = Some r -> r = y0 + Z.of_nat k)%Z /\
    (forall k c, nth_error (sliced xs (upto w)) k = Some c -> c = x0 + Z.of_nat k)%Z /\
    dsize t = Some (Z.of_nat (List.length (sliced xs (upto w))), Z.of_nat (List.length (sliced ys (upto h)))) /\
    num_channels t = Some (Z.of_nat (List.length l)) /\
    (forall n, names s = Some n -> exists n', names t = Some n' /\
       forall c b, nth_error l c = Some b -> nth_error n' c = nth_error n (Z.to_nat b)) /\
    forall c b, nth_error l c = Some b -> forall x y smp,
      vis t x y (Z.of_nat c) smp <->
      inside (Z.of_nat (List.length (sliced xs (upto w))), Z.of_nat (List.length (sliced ys (upto h)))) x y /\
      vis s (x + inject_Z x0) (y + inject_Z y0) b smp.
Proof.
  intros s m w h ys xs l Hwf Hm Hd Hw Hh Hl Hy Hx.
  destruct (sliced_ok _ _ Hh Hy) as ([y0 y1] & Ey). destruct (sliced_ok _ _ Hw Hx) as ([x0 x1] & Ex).
  destruct (wrap_clip_bounds _ _ _ Hh Ey) as (Y1 & Y2 & Y3). destruct (wrap_clip_bounds _ _ _ Hw Ex) as (X1 & X2 & X3).
  destruct (sliced_upto _ _ _ Hh Ey) as (Ly & Ny). destruct (sliced_upto _ _ _ Hw Ex) as (Lx & Nx). cbn [fst snd] in *.
  destruct (crop_bands s m w h y0 y1 x0 x1 l Hwf Hm Hd) as (t & Ht & Hdt & Hnc & Hnm & Hv); try lia; [exact Hl|].
  exists t, x0, y0. split; [|split; [|split; [|split; [|split; [|split]]]]].
  - rewrite <- Ht. unfold api_crop, mkCrop, from_to. cbn [bind negb orb Z.eqb]. rewrite Hd. cbn [fst snd].
    rewrite Ey, Ex, !wrap_clip_id by lia. reflexivity.
  - exact Ny.
  - exact Nx.
  - rewrite Lx, Ly. exact Hdt.
  - exact Hnc.
  - exact Hnm.
  - rewrite Lx, Ly. exact Hv.
Qed.
Print Assumptions C99_any_window_partial.

Example C99_any_window_case : sliced (Some (-3), None)%Z (upto 8) = [5; 6; 7]%Z /\ sliced (None, Some 100)%Z (upto 10) <> [] /\
  exists t, api_crop ex_rgb (Some ((Some (-3), None), (None, Some 100))%Z) (Some [2; 0]%Z) true true 0 false = Ok t /\
    names t = Some ["b"; "r"]%string /\ dsize t = Some (10, 3)%Z.
Proof. split; [reflexivity|]. split; [discriminate|]. eexists. split; [vm_compute; reflexivity|]. split; reflexivity. Qed.

(** C100: resize gives exactly the requested size, keeps the bands, and point
    (x, y) of the result is point (x w / w', y h / h') of the source. *)
Theorem C100_resize : forall close s d al lazy w h,
  (0 < w)%Z -> (0 < h)%Z -> (0 < fst d)%Z -> (0 < snd d)%Z -> exact_close close -> dsize s = Some (w, h) ->
  exists t, api_resize close s d al lazy = Ok t /\
  dsize t = Some d /\ num_channels t = num_channels s /\ names t = names s /\
  forall x y c smp, vis t x y c smp <->
    inside d x y /\
    vis s (x * inject_Z w / inject_Z (fst d)) (y * inject_Z h / inject_Z (snd d)) c smp.
Proof.
  intros close s d al lazy w h Hw Hh Hdw Hdh Hc Hd. destruct (resize_total close s w h d al lazy Hd Hw Hh) as (t & Ht).
  exists t. split; [exact Ht|]. now apply (resize_vis close s d al lazy t w h).
Qed.
Print Assumptions C100_resize.

(* resizing in two steps shows what resizing at once shows *)
Theorem C100_resize_twice : forall close s d1 d2 al1 al2 al lz1 lz2 lz t1 t2 t w h,
  (0 < w)%Z -> (0 < h)%Z -> (0 < fst d1)%Z -> (0 < snd d1)%Z -> (0 < fst d2)%Z -> (0 < snd d2)%Z ->
  exact_close close -> dsize s = Some (w, h) ->
  api_resize close s d1 al1 lz1 = Ok t1 -> api_resize close t1 d2 al2 lz2 = Ok t2 ->
  api_resize close s d2 al lz = Ok t ->
  dsize t2 = dsize t /\ forall x y c smp, vis t2 x y c smp <-> vis t x y c smp.
Proof. exact resize_twice. Qed.
Print Assumptions C100_resize_twice.

(* and so does resizing in any number of steps *)
Theorem C100_resize_many : forall close l s d al lazy al' lazy' t u w h,
  (0 < w)%Z -> (0 < h)%Z -> (0 < fst d)%Z -> (0 < snd d)%Z ->
  Forall (fun r => (0 < fst (fst (fst r)))%Z /\ (0 < snd (fst (fst r)))%Z) l ->
  exact_close close -> dsize s = Some (w, h) ->
  resized close s (l ++ [(d, al, lazy)]) t -> api_resize close s d al' lazy' = Ok u ->
  dsize t = dsize u /\ forall x y c smp, vis t x y c smp <-> vis u x y c smp.
Proof. exact resize_many. Qed.
Print Assumptions C100_resize_many.

(* resizing and resizing back shows every sample where it was *)
Theorem C100_resize_back : forall close s d al1 al2 lz1 lz2 t1 t2 w h,
  (0 < w)%Z -> (0 < h)%Z -> (0 < fst d)%Z -> (0 < snd d)%Z ->
  exact_close close -> dsize s = Some (w, h) ->
  api_resize close s d al1 lz1 = Ok t1 -> api_resize close t1 (w, h) al2 lz2 = Ok t2 ->
  dsize t2 = dsize s /\ forall x y c smp, vis t2 x y c smp <-> vis s x y c smp.
Proof. exact resize_back. Qed.
Print Assumptions C100_resize_back.

Lemma identity_close : exact_close is_identity.
Proof. intros N H. exact H. Qed.

Example C100_case : exists t1 t2 t3, dsize ex_rgb = Some (10, 8)%Z /\
  api_resize is_identity ex_rgb (7, 20)%Z default_algo true = Ok t1 /\
  api_resize is_identity t1 (10, 8)%Z default_algo true = Ok t2 /\
  api_resize is_identity t1 (3, 3)%Z default_algo true = Ok t3 /\
  t1 <> ex_rgb /\ t2 <> t1 /\ dsize t3 = Some (3, 3)%Z.
Proof.
  do 3 eexists. split; [reflexivity|]. split; [vm_compute; reflexivity|]. split; [vm_compute; reflexivity|].
  split; [vm_compute; reflexivity|]. split; [discriminate|]. split; [discriminate|]. reflexivity.
Qed.

Example C100_many_case : exists t u,
  resized is_identity ex_rgb ([((7, 20)%Z, default_algo, true); ((1, 1)%Z, default_algo, false)] ++ [((5, 4)%Z, default_algo, true)]) t /\
  api_resize is_identity ex_rgb (5, 4)%Z default_algo true = Ok u /\ t <> u.
Proof.
  do 2 eexists. split; [|split; [vm_compute; reflexivity|]].
  - cbn [app]. do 3 (eapply Rs_step; [vm_compute; reflexivity|]). apply Rs_none.
  - discriminate.
Qed.

(** C46 for images: the overview b of the overview a, and the overview a + b that
    optimize() makes of it, have the same size and bands and show the same samples at
    the same points. *)
Theorem C46_same_samples : forall s a b t u v, (0 <= a)%Z -> (0 <= b)%Z ->
  mkOverview s a = Ok t -> mkOverview t b = Ok u -> mkOverview s (a + b) = Ok v ->
  dsize u = dsize v /\ names u = names v /\ num_channels u = num_channels v /\
  (forall x y c smp, vis u x y c smp <-> vis v x y c smp).
Proof. exact overview_twice. Qed.
Print Assumptions C46_same_samples.

Example C46_same_samples_case : exists t u v,
  mkOverview ex_rgb 2 = Ok t /\ mkOverview t 1 = Ok u /\ mkOverview ex_rgb 3 = Ok v /\
  dsize t = Some (3, 2)%Z /\ dsize u = Some (2, 1)%Z /\ dsize v = Some (2, 1)%Z /\
  vis u 1 (1 # 2) 2 (Samp 1 2 8 4 []).
Proof.
  do 3 eexists. repeat (split; [vm_compute; reflexivity|]). cbn.
  repeat split; try (vm_compute; congruence). all: try (exists 3%Z; repeat split; vm_compute; congruence). exists 8, 4. now repeat split.
Qed.

(** C101: get_overview(k) is scale(1/2^k): same size, same bands, and the same
    samples at the same points. *)
Theorem C101_overview_is_scale : forall close s k al lazy t t' w h,
  (0 <= w)%Z -> (0 <= h)%Z -> exact_close close -> dsize s = Some (w, h) ->
  mkOverview s k = Ok t ->
  api_scale close s (1 / pow2 k) (1 / pow2 k) None al lazy = Ok t' ->
  dsize t = dsize t' /\ num_channels t = num_channels t' /\ names t = names t' /\
  forall x y c smp, vis t x y c smp <-> vis t' x y c smp.
Proof. exact overview_scale. Qed.
Print Assumptions C101_overview_is_scale.

Example C101_case : exists t t', mkOverview ex_rgb 2 = Ok t /\
  api_scale is_identity ex_rgb (1 / pow2 2) (1 / pow2 2) None default_algo true = Ok t' /\
  t <> t' /\ dsize t = Some (3, 2)%Z /\ dsize t' = Some (3, 2)%Z.
Proof.
  do 2 eexists. split; [vm_compute; reflexivity|]. split; [vm_compute; reflexivity|].
  split; [discriminate|]. split; reflexivity.
Qed.

(** C102: optimize() of any chain of warps over an image without overviews returns,
    and gives one warp, with the size and the settings (up to the backend) of the
    last warp of the chain, that sends every source point where the chain sends it;
    when the chain moves nothing and its size is that of the image, it gives the
    image itself. *)
Theorem C102_warps_fuse : forall o l c M d al,
  l_kind l = Data -> (l_ov l = None \/ l_ov l = Some 0%Z) ->
  (forall w, In w (c ++ [(M, d, al)]) -> al_eps (snd w) == 0) ->
  exists n, optimizes o (warps (Leaf l) (c ++ [(M, d, al)])) n /\
    ((n = Leaf l /\ stays (c ++ [(M, d, al)]) /\ d = l_dsize l) \/
     (exists P al', n = Warp (Leaf l) P d al' /\ drop_backend al' = drop_backend al /\
        (forall x y, ax P x y == fst (through (c ++ [(M, d, al)]) x y) /\
                     ay P x y == snd (through (c ++ [(M, d, al)]) x y)) /\
        ~ (stays (c ++ [(M, d, al)]) /\ d = l_dsize l))).
Proof. exact chain_warps. Qed.
Print Assumptions C102_warps_fuse.

Example C102_case :
  warps ex_rgb [(aff_scale 2 2, (20, 16)%Z, default_algo); (aff_translate (-3) 1, (17, 17)%Z, Algo true 0 5 9)] =
    Warp (Warp ex_rgb (aff_scale 2 2) (20, 16)%Z default_algo) (aff_translate (-3) 1) (17, 17)%Z (Algo true 0 5 9) /\
  optimizes axis_oracle
    (warps ex_rgb [(aff_scale 2 2, (20, 16)%Z, default_algo); (aff_translate (-3) 1, (17, 17)%Z, Algo true 0 5 9)])
    (Warp ex_rgb (aff_mul (aff_translate (-3) 1) (aff_scale 2 2)) (17, 17)%Z (Algo true 0 5 0)).
Proof. split; [reflexivity|]. exists 5%nat, false. vm_compute. reflexivity. Qed.

(** C103: a padded crop has the size of the requested window plus the padding on
    both sides, and point (x, y) shows the source at (x + x0 - pad, y + y0 - pad),
    for every window that reaches the image. *)
Theorem C103_padded_crop : forall s sy sx y0 y1 x0 x1 pad t w h,
  wf s -> dsize s = Some (w, h) -> (0 <= w)%Z -> (0 <= h)%Z -> (0 <= pad)%Z ->
  starts sy y0 -> stops sy h y1 -> starts sx x0 -> stops sx w x1 ->
  api_crop s (Some (sy, sx)) None false false pad false = Ok t ->
  dsize t = Some (x1 - x0 + 2 * pad, y1 - y0 + 2 * pad)%Z /\
  num_channels t = num_channels s /\ names t = names s /\
  ((x0 - pad <= w)%Z -> (0 <= x1 + pad)%Z -> (y0 - pad <= h)%Z -> (0 <= y1 + pad)%Z ->
   forall x y c smp, vis t x y c smp <->
     inside (x1 - x0 + 2 * pad, y1 - y0 + 2 * pad)%Z x y /\
     vis s (x + inject_Z (x0 - pad)) (y + inject_Z (y0 - pad)) c smp).
Proof.
  intros s sy sx y0 y1 x0 x1 pad t w h Hw Hd Hw0 Hh0 Hp A1 A2 A3 A4 H. unfold api_crop in H. cbn [negb orb bind] in H.
  destruct (padded_view _ _ _ _ _ _ Hw Hd Hw0 Hh0 Hp H) as (_ & _ & Hv & Hs & Hn & Hm). cbn [fst snd] in Hv, Hs.
  rewrite (starts_stops _ _ _ _ A1 A2), (starts_stops _ _ _ _ A3 A4) in *. cbn in Hv, Hs. auto.
Qed.
Print Assumptions C103_padded_crop.

(* padding is the same as growing the window *)
Theorem C103_pad_is_growth : forall s ya yb xa xb ci p, (ya <= yb)%Z -> (xa <= xb)%Z -> (0 <= p)%Z ->
  api_crop s (Some (from_to ya yb, from_to xa xb)) ci false false p false =
  api_crop s (Some (from_to (ya - p) (yb + p), from_to (xa - p) (xb + p))) ci false false 0 false.
Proof. exact crop_grow. Qed.
Print Assumptions C103_pad_is_growth.

Example C103_case : exists t,
  api_crop ex_rgb (Some (from_to (-3) 4, from_to 7 15)) None false false 1 false = Ok t /\
  dsize t = Some (10, 9)%Z.
Proof. eexists. split; [vm_compute; reflexivity|]. reflexivity. Qed.

(* missing bounds are the edges of the image *)
Example C103_open_case : exists t, starts (None, Some 4%Z) 0 /\ stops (None, Some 4%Z) 8 4 /\
  starts (Some 7, None)%Z 7 /\ stops (Some 7, None)%Z 10 10 /\
  api_crop ex_rgb (Some ((None, Some 4%Z), (Some 7, None)%Z)) None false false 2 false = Ok t /\
  dsize t = Some (7, 8)%Z.
Proof.
  eexists. unfold starts, stops. cbn. split; [right; auto|]. split; [left; auto|]. split; [left; auto|].
  split; [right; auto|]. split; [vm_compute; reflexivity|]. reflexivity.
Qed.

(** C54 for crop(lazy=...) as a whole: without a band selection a lazy crop has the
    size, the bands and the samples of the eager crop, in the normal and in the
    padded mode. *)
Theorem C54_lazy_crop_same_partial : forall s sl clip wrap pad t t' w h,
  wf s -> dsize s = Some (w, h) -> (0 <= w)%Z -> (0 <= h)%Z -> (0 <= pad)%Z ->
  api_crop s (Some sl) None clip wrap pad true = Ok t ->
  api_crop s (Some sl) None clip wrap pad false = Ok t' ->
  dsize t = dsize t' /\ num_channels t = num_channels t' /\ names t = names t' /\
  forall x y c smp, vis t x y c smp <-> vis t' x y c smp.
Proof. exact lazy_crop_same. Qed.
Print Assumptions C54_lazy_crop_same_partial.

(* With a band selection it is false: the lazy crop of the whole canvas keeps all
   bands. *)
Theorem C54_lazy_bands_refuted : exists s sl l t t', wf s /\
  api_crop s (Some sl) (Some l) true true 0 true = Ok t /\
  api_crop s (Some sl) (Some l) true true 0 false = Ok t' /\
  num_channels t = Some 3%Z /\ num_channels t' = Some 1%Z.
Proof.
  exists ex_rgb, (from_to 0 8, (None, None)), [1%Z]. eexists _, _. split; [apply ex_rgb_wf|].
  split; [vm_compute; reflexivity|]. split; [vm_compute; reflexivity|]. split; reflexivity.
Qed.
Print Assumptions C54_lazy_bands_refuted.

Example C54_lazy_crop_same_case : exists t' p p',
  api_crop ex_rgb (Some (from_to 0 8, (None, None))) None true true 0 true = Ok ex_rgb /\
  api_crop ex_rgb (Some (from_to 0 8, (None, None))) None true true 0 false = Ok t' /\ t' <> ex_rgb /\
  api_crop ex_rgb (Some (from_to 0 8, (None, None))) None false false 1 true = Ok p /\
  api_crop ex_rgb (Some (from_to 0 8, (None, None))) None false false 0 false = Ok p' /\ p <> ex_rgb.
Proof.
  do 3 eexists. split; [vm_compute; reflexivity|]. split; [vm_compute; reflexivity|]. split; [discriminate|].
  split; [vm_compute; reflexivity|]. split; [vm_compute; reflexivity|]. discriminate.
Qed.

(** C112: a coordinate crop of the box with corner (x0, y0) has the size of the box,
    and point (x, y) shows the source at (x + x0, y + y0), also for fractional
    corners and boxes that leave the image; it fails for no box. *)
Theorem C112_coordinate_crop : forall close s x0 y0 d, dsize s <> None ->
  exists t, api_coordinate_crop close s x0 y0 d = Ok t /\
  dsize t = Some d /\ num_channels t = num_channels s /\ names t = names s /\
  forall x y c smp, vis t x y c smp <-> inside d x y /\ vis s (x + x0) (y + y0) c smp.
Proof.
  intros close s x0 y0 d Hd. destruct (api_coordinate_crop close s x0 y0 d) as [t|e] eqn:E.
  - exists t. split; [reflexivity|]. exact (coordinate_view _ _ _ _ _ _ E).
  - unfold api_coordinate_crop, api_warp in E. destruct (dsize s); [discriminate|congruence].
Qed.
Print Assumptions C112_coordinate_crop.

(* a coordinate crop of a coordinate crop is one coordinate crop, as long as the
   second box lies in the first *)
Theorem C112_twice : forall close s x0 y0 d x1 y1 d1 t t1 u, 0 <= x1 -> 0 <= y1 ->
  x1 + inject_Z (fst d1) <= inject_Z (fst d) -> y1 + inject_Z (snd d1) <= inject_Z (snd d) ->
  api_coordinate_crop close s x0 y0 d = Ok t -> api_coordinate_crop close t x1 y1 d1 = Ok t1 ->
  api_coordinate_crop close s (x0 + x1) (y0 + y1) d1 = Ok u ->
  dsize t1 = dsize u /\ names t1 = names u /\ num_channels t1 = num_channels u /\
  forall x y c smp, vis t1 x y c smp <-> vis u x y c smp.
Proof. exact coordinate_twice. Qed.
Print Assumptions C112_twice.

Example C112_case : exists t t1,
  api_coordinate_crop is_identity ex_rgb (1#2) (-(3#2)) (4, 6)%Z = Ok t /\
  api_coordinate_crop is_identity t (1#2) 1 (3, 3)%Z = Ok t1 /\
  vis t1 1 1 0 (Samp 1 0 2 (1#2) []).
Proof.
  do 2 eexists. split; [reflexivity|]. split; [reflexivity|]. cbn. split; [split; split; discriminate|].
  exists (3#2), 2. split; [reflexivity|]. split; [reflexivity|]. split; [split; split; discriminate|].
  exists 2, (1#2). split; [reflexivity|]. split; [reflexivity|]. split; [split; split; discriminate|].
  split; [exists 3%Z; split; [reflexivity|lia]|]. exists 2, (1#2). repeat split; reflexivity.
Qed.
