(* Lemmas about the lazy loaders, the cache, prepare and shape merging. *)
From Verif Require Import Py PyProofs LazyModel LazySpec.
From Coq Require Import ZifyBool Permutation.
Local Open Scope Z_scope.

(** ** Positions *)

Lemma span_nil a n : n <= 0 -> span a n = [].
Proof. intros H. unfold span. now replace (Z.to_nat n) with O by lia. Qed.

Lemma span_length a n : List.length (span a n) = Z.to_nat n.
Proof. unfold span. now rewrite map_length, zseq_length. Qed.

Lemma span_In a n z : In z (span a n) <-> a <= z < a + Z.max 0 n.
Proof.
  unfold span. rewrite in_map_iff. split.
  - intros (k & <- & H). apply zseq_In in H. lia.
  - intros H. exists (z - a). split; [lia|]. apply zseq_In. lia.
Qed.

Lemma span_nonempty a n : span a n <> [] <-> 0 < n.
Proof.
  split.
  - intros H. destruct (Z.ltb_spec 0 n); [assumption|]. rewrite span_nil in H by lia. congruence.
  - intros H E. apply (f_equal (@List.length Z)) in E. rewrite span_length in E. cbn in E. lia.
Qed.

Lemma zseq_span n : zseq (Z.to_nat n) = span 0 n.
Proof. unfold span. rewrite map_ext with (g := fun k => k) by (intros; lia). now rewrite map_id. Qed.

Lemma skipn_span k a n : skipn k (span a n) = span (a + Z.of_nat k) (n - Z.of_nat k).
Proof.
  destruct (Nat.le_gt_cases (Z.to_nat n) k) as [H|H].
  - rewrite skipn_all2 by (rewrite span_length; lia). now rewrite span_nil by lia.
  - unfold span. replace (Z.to_nat n) with (k + (Z.to_nat (n - Z.of_nat k)))%nat by lia.
    rewrite (zseq_map_add k _ (fun x => x)), map_app, skipn_app, map_length, zseq_length, Nat.sub_diag.
    rewrite skipn_all2 by (rewrite map_length, zseq_length; lia). cbn [app skipn]. rewrite map_map. apply map_ext. intros; lia.
Qed.

Lemma firstn_span k a n : firstn k (span a n) = span a (Z.min (Z.of_nat k) n).
Proof.
  destruct (Nat.le_gt_cases (Z.to_nat n) k) as [H|H].
  - rewrite firstn_all2 by (rewrite span_length; lia).
    unfold span. f_equal. f_equal. lia.
  - unfold span. replace (Z.to_nat n) with (k + (Z.to_nat (n - Z.of_nat k)))%nat by lia.
    rewrite (zseq_map_add k _ (fun x => x)), map_app, firstn_app, map_length, zseq_length, Nat.sub_diag.
    rewrite firstn_all2 by (rewrite map_length, zseq_length; lia). cbn [app firstn]. rewrite app_nil_r.
    f_equal. f_equal. lia.
Qed.

Lemma span_one a : span a 1 = [a].
Proof. unfold span. change (zseq (Z.to_nat 1)) with [0]. cbn [map]. f_equal. lia. Qed.

Definition lo (D : Z) (a : option Z) : Z := match a with None => 0 | Some a => slice_bound D a end.
Definition hi (D : Z) (b : option Z) : Z := match b with None => D | Some b => slice_bound D b end.

Lemma slice_bound_range D i : 0 <= D -> 0 <= slice_bound D i <= D.
Proof. intros H. unfold slice_bound. destruct (Z.ltb_spec i 0); lia. Qed.

Lemma slice_span D a b : 0 <= D -> py_slice (zseq (Z.to_nat D)) a b = span (lo D a) (hi D b - lo D a).
Proof.
  intros HD. unfold py_slice. rewrite zseq_length, Z2Nat.id by exact HD. fold (lo D a). fold (hi D b).
  assert (L : 0 <= lo D a <= D) by (destruct a; cbn; [now apply slice_bound_range|lia]).
  assert (H : 0 <= hi D b <= D) by (destruct b; cbn; [now apply slice_bound_range|lia]).
  rewrite zseq_span, skipn_span, firstn_span. replace (0 + Z.of_nat (Z.to_nat (lo D a))) with (lo D a) by lia.
  unfold span. f_equal. f_equal. lia.
Qed.

(** ** Rectified entries *)

Lemma lo_range D a : 0 <= D -> 0 <= lo D a <= D.
Proof. intros H. destruct a; cbn [lo]; [now apply slice_bound_range|lia]. Qed.
Lemma hi_range D b : 0 <= D -> 0 <= hi D b <= D.
Proof. intros H. destruct b; cbn [hi]; [now apply slice_bound_range|lia]. Qed.

Definition cstart (a : option Z) : Z := match a with None => 0 | Some a => Z.max 0 a end.
Definition cstop (D : Z) (b : option Z) : Z :=
  let stop := match b with None => D | Some b => Z.min D b end in if stop <? 0 then D + stop else stop.

Lemma cstart_lo D a : 0 <= D -> match a with None => True | Some a => 0 <= a end ->
  lo D a = Z.min D (cstart a).
Proof. intros HD H. destruct a as [a|]; cbn [lo cstart]; unfold slice_bound; [destruct (Z.ltb_spec a 0)|]; lia. Qed.

Lemma cstop_hi D b : 0 <= D -> hi D b = Z.max 0 (cstop D b) /\ cstop D b <= D.
Proof.
  intros HD. unfold cstop. destruct b as [b|]; cbn [hi]; cbv zeta.
  - unfold slice_bound. destruct (Z.ltb_spec b 0), (Z.ltb_spec (Z.min D b) 0); lia.
  - destruct (Z.ltb_spec D 0); lia.
Qed.

Lemma rectify_window i D : 0 <= D -> window_entry i D -> selects i D <> [] ->
  exists a n, rectify i D = Ok (PSlice a (a + n)) /\ selects i D = span a n /\ 0 <= a /\ 0 < n /\ a + n <= D.
Proof.
  intros HD Hw Hs. destruct i as [| |a b [st|]|i|l|]; cbn [window_entry] in Hw; try contradiction.
  - exists 0, D. cbn [rectify selects] in *. rewrite zseq_span in *. apply span_nonempty in Hs. repeat split; lia.
  - cbn [selects] in *. rewrite slice_span in * by exact HD. apply span_nonempty in Hs.
    change (rectify (ISlice a b None) D) with (Ok (PSlice (cstart a) (cstop D b))).
    pose proof (cstart_lo D a HD Hw). destruct (cstop_hi D b HD).
    assert (0 <= cstart a) by (destruct a; cbn; lia).
    exists (lo D a), (hi D b - lo D a). split; [f_equal; f_equal; lia|]. split; [reflexivity|]. lia.
  - exists i, 1. cbn [rectify selects]. rewrite span_one. split; [reflexivity|]. split; [reflexivity|lia].
Qed.

Lemma slice_bound_id D z : 0 <= z <= D -> slice_bound D z = z.
Proof. intros H. unfold slice_bound. destruct (Z.ltb_spec z 0); lia. Qed.

Lemma rectify_bands i D : 0 <= D -> band_entry i D -> exists p, rectify i D = Ok p /\
  map (fun i => if i <? 0 then i + D else i) (band_indices p D) = selects i D /\
  Forall (fun i => - D <= i < D) (band_indices p D).
Proof.
  intros HD Hw. 
  assert (W : forall a b, 0 <= a -> b <= D ->
    map (fun i => if i <? 0 then i + D else i) (span a (b - a)) = span a (b - a) /\ Forall (fun i => - D <= i < D) (span a (b - a))).
  { intros a b Ha Hb. assert (F : forall z, In z (span a (b - a)) -> 0 <= z < D).
    { intros z Hz. apply span_In in Hz. lia. }
    split; [|apply Forall_forall; intros z Hz; apply F in Hz; lia].
    rewrite <- (map_id (span a (b - a))) at 2. apply map_ext_in. intros z Hz. apply F in Hz. destruct (Z.ltb_spec z 0); lia. }
  assert (Sl : forall a b, match a with None => True | Some a => 0 <= a end -> match b with None => True | Some b => - D <= b end ->
    exists p, rectify (ISlice a b None) D = Ok p /\
    map (fun i => if i <? 0 then i + D else i) (band_indices p D) = selects (ISlice a b None) D /\
    Forall (fun i => - D <= i < D) (band_indices p D)).
  { intros a b Ha Hb. exists (PSlice (cstart a) (cstop D b)). split; [reflexivity|]. cbn [band_indices selects].
    rewrite slice_span by exact HD. pose proof (cstart_lo D a HD Ha). destruct (cstop_hi D b HD).
    assert (0 <= cstart a) by (destruct a; cbn; lia).
    assert (0 <= cstop D b).
    { unfold cstop. destruct b as [b|]; cbv zeta; [destruct (Z.ltb_spec (Z.min D b) 0)|destruct (Z.ltb_spec D 0)]; lia. }
    assert (slice_bound D (cstart a) = lo D a) as -> by (unfold slice_bound; destruct (Z.ltb_spec (cstart a) 0); lia).
    rewrite slice_bound_id by lia. replace (cstop D b) with (hi D b) by lia.
    apply W; [apply lo_range|apply hi_range]; exact HD. }
  destruct i as [| |a b [st|]|i|l|]; cbn [band_entry window_entry] in Hw; try contradiction; try (now destruct b).
  - exists (PSlice 0 D). split; [reflexivity|]. cbn [band_indices selects]. rewrite zseq_span.
    rewrite !slice_bound_id by lia. cbv zeta. destruct (W 0 D) as [H1 H2]; [lia|lia|]. rewrite Z.sub_0_r in *. auto.
  - destruct b as [b|]; [destruct Hw|]; apply Sl; auto.
  - exists (PSlice i (i + 1)). split; [reflexivity|]. cbn [band_indices selects].
    rewrite !slice_bound_id by lia. cbv zeta. destruct (W i (i + 1)) as [H1 H2]; [lia|lia|].
    replace [i] with (span i (i + 1 - i)); [auto|]. replace (i + 1 - i) with 1 by lia. apply span_one.
  - exists (PList l). cbn. auto.
Qed.

(** ** Indices *)

Lemma filter_ellipsis l : ~ In IEllipsis l -> filter is_ellipsis l = [].
Proof.
  induction l as [|p l IH]; [reflexivity|]. intros H. cbn. destruct p; cbn; try (apply IH; intros X; apply H; now right).
  destruct H. now left.
Qed.

Lemma find_ellipsis_app pre post : ~ In IEllipsis pre -> find_ellipsis (pre ++ IEllipsis :: post) = List.length pre.
Proof.
  induction pre as [|p pre IH]; [reflexivity|]. intros H. cbn. destruct p; cbn; try (f_equal; apply IH; intros X; apply H; now right).
  destruct H. now left.
Qed.

Lemma expand_means index iy ix ic : means 1 index iy ix ic -> expand_index index = Ok [iy; ix; ic].
Proof.
  intros [(Hn & k & E)|(pre & post & k & -> & Hn & Hk & E)]; unfold expand_index.
  - rewrite filter_ellipsis by exact Hn. cbn [List.length]. f_equal.
    assert (L := f_equal (@List.length idx) E). rewrite app_length, repeat_length in L. cbn in L.
    destruct (Z.ltb_spec (Z.of_nat (List.length index)) 3) as [H|H].
    + rewrite E. f_equal. f_equal. lia.
    + rewrite E. replace k with O by lia. cbn. now rewrite app_nil_r.
  - assert (N1 : ~ In IEllipsis pre) by (intros X; apply Hn, in_or_app; auto).
    assert (N2 : ~ In IEllipsis post) by (intros X; apply Hn, in_or_app; auto).
    rewrite filter_app. cbn [filter is_ellipsis]. rewrite !filter_ellipsis by assumption. cbn [app List.length].
    rewrite find_ellipsis_app by exact N1. f_equal.
    assert (L := f_equal (@List.length idx) E). rewrite !app_length, repeat_length in L. cbn in L.
    rewrite app_length. cbn [List.length].
    destruct (Z.ltb_spec 0 (1 + 3 - Z.of_nat (List.length pre + S (List.length post)))) as [H|H]; [|lia].
    rewrite E, firstn_app, Nat.sub_diag, firstn_all. cbn [firstn]. rewrite app_nil_r. f_equal. f_equal; [f_equal; lia|].
    rewrite Nat.add_1_r, skipn_app. rewrite skipn_all2 by lia.
    now replace (S (List.length pre) - List.length pre)%nat with 1%nat by lia.
Qed.

Lemma mapR_eq_map {A B} (f : A -> result B) (g : A -> B) l : (forall x, In x l -> f x = Ok (g x)) -> mapR f l = Ok (map g l).
Proof. induction l as [|x l IH]; intros H; [reflexivity|]. cbn. rewrite (H x) by now left. cbn. rewrite IH; [reflexivity|]. intros; apply H; now right. Qed.

(** ** Marks *)
Section Reads.
Context {V : Type} (veq : V -> V -> bool) (promote : V -> V).

Definition rename (m : option string) : option string :=
  match m with Some m => Some (if String.eqb m "auto" then "float"%string else m) | None => None end.

Lemma mark_shown m nd v : In m methods -> mark veq promote (rename m) nd v = Ok (shown veq promote m nd v).
Proof. intros [<-|[<-|[<-|[<-|[<-|[]]]]]]; reflexivity. Qed.

Lemma known_rename m : In m methods -> known_method (rename m) = true.
Proof. intros [<-|[<-|[<-|[<-|[<-|[]]]]]]; reflexivity. Qed.

Lemma mark_pixel_shown m (nd : Z -> option V) (px : Z -> V) bands : In m methods ->
  mark_pixel veq promote (rename m) (map nd bands) (map px bands) = Ok (map (fun b => shown veq promote m (nd b) (px b)) bands).
Proof.
  intros Hm. induction bands as [|b bands IH]; [reflexivity|]. cbn [map mark_pixel].
  rewrite mark_shown by exact Hm. cbn [bind]. now rewrite IH.
Qed.

Lemma mark_image_shown m (nd : Z -> option V) (pix : Z -> Z -> Z -> V) ys xs bands : In m methods ->
  mark_image veq promote (rename m) (map nd bands) (map (fun y => map (fun x => map (pix y x) bands) xs) ys)
  = Ok (map (fun y => map (fun x => map (fun b => shown veq promote m (nd b) (pix y x b)) bands) xs) ys).
Proof.
  intros Hm. unfold mark_image. rewrite known_rename by exact Hm.
  rewrite mapR_map. apply mapR_eq_map. intros y _. rewrite mapR_map. apply mapR_eq_map. intros x _.
  now apply mark_pixel_shown.
Qed.

(** ** Reads *)

Lemma window_ok (f : gfile V) lvl y0 x0 ny nx bands : 0 <= y0 -> 0 < ny -> y0 + ny <= g_h f lvl -> 0 <= x0 -> 0 < nx -> x0 + nx <= g_w f lvl ->
  Forall (fun b => 0 <= b < g_c f) bands ->
  gdal_window f lvl y0 x0 ny nx bands = Some (map (fun y => map (fun x => map (g_pix f lvl y x) bands) (span x0 nx)) (span y0 ny)).
Proof.
  intros. unfold gdal_window, in_window.
  replace (_ && _ && _) with true; [reflexivity|]. symmetry. rewrite !andb_true_iff.
  repeat split; try lia. apply forallb_forall. intros b Hb. rewrite Forall_forall in H5. apply H5 in Hb. lia.
Qed.

Lemma py_get_zseq C i : - Z.of_nat C <= i < Z.of_nat C -> py_get (zseq C) i = Ok (if i <? 0 then i + Z.of_nat C else i).
Proof.
  intros H. unfold py_get. rewrite zseq_length. set (j := if i <? 0 then i + Z.of_nat C else i).
  assert (0 <= j < Z.of_nat C) by (unfold j; destruct (Z.ltb_spec i 0); lia).
  destruct (Z.ltb_spec j 0); [lia|]. unfold zseq. rewrite nth_error_map.
  rewrite (nth_error_nth' (seq 0 C) 0%nat) by (rewrite seq_length; lia). cbn. rewrite seq_nth by lia. f_equal. lia.
Qed.

Definition wrap (C i : Z) : Z := if i <? 0 then i + C else i.
Lemma wrap_range C i : - C <= i < C -> 0 <= wrap C i < C.
Proof. unfold wrap. destruct (Z.ltb_spec i 0); lia. Qed.

Lemma compat_ok upstream (s : lazy V) bands y0 x0 ny nx m lvl : read_bands s = Ok lvl -> In m methods -> bands <> [] -> 0 <= g_c (l_file s) ->
  0 <= y0 -> 0 < ny -> y0 + ny <= g_h (l_file s) lvl -> 0 <= x0 -> 0 < nx -> x0 + nx <= g_w (l_file s) lvl ->
  Forall (fun b => - g_c (l_file s) <= b < g_c (l_file s)) bands ->
  let bs := map (wrap (g_c (l_file s))) bands in
  compat_read veq promote upstream s bands y0 x0 ny nx (rename m) =
  Ok (mkR (Z.of_nat (List.length bs) =? 1) ny nx (Z.of_nat (List.length bs))
       (map (fun y => map (fun x => map (fun b => shown veq promote m (g_nodata (l_file s) lvl b) (g_pix (l_file s) lvl y x b)) bs) (span x0 nx)) (span y0 ny))).
Proof.
  intros Hl Hm Hne HC. intros. unfold compat_read. rewrite Hl. cbn [bind].
  assert (E : mapR (py_get (zseq (Z.to_nat (g_c (l_file s))))) bands = Ok bs).
  { unfold bs. apply mapR_eq_map. intros b Hb. rewrite py_get_zseq; rewrite Z2Nat.id by exact HC; [reflexivity|]. rewrite Forall_forall in H5. now apply H5. }
  rewrite E. cbn [bind]. assert (Hbs : bs <> []) by (unfold bs; destruct bands; [congruence|discriminate]).
  destruct bs as [|b0 bs0] eqn:Eb; [congruence|]. rewrite <- Eb in *.
  rewrite window_ok; [|try assumption..].
  - rewrite mark_image_shown by exact Hm. reflexivity.
  - unfold bs. apply Forall_forall. intros b Hb. apply in_map_iff in Hb as (b' & <- & Hb). apply wrap_range. rewrite Forall_forall in H5. now apply H5.
Qed.

Lemma fast_ok (s : lazy V) bands y0 x0 ny nx m lvl : read_ds s = Ok lvl -> In m methods -> bands <> [] ->
  0 <= y0 -> 0 < ny -> y0 + ny <= g_h (l_file s) lvl -> 0 <= x0 -> 0 < nx -> x0 + nx <= g_w (l_file s) lvl ->
  let bs := map (wrap (g_c (l_file s))) bands in
  match fast_read veq promote s bands y0 x0 ny nx (rename m) with
  | Ok r => r = mkR (Z.of_nat (List.length bs) =? 1) ny nx (Z.of_nat (List.length bs))
       (map (fun y => map (fun x => map (fun b => shown veq promote m (g_nodata (l_file s) lvl b) (g_pix (l_file s) lvl y x b)) bs) (span x0 nx)) (span y0 ny))
  | Err _ => ~ Forall (fun b => 0 <= b < g_c (l_file s)) bands
  end.
Proof.
  intros Hl Hm Hne. intros. unfold fast_read. destruct bands as [|b0 bands0] eqn:Eb; [congruence|]. rewrite <- Eb in *.
  rewrite Hl. cbn [bind]. destruct (forallb (fun b => (0 <=? b) && (b <? g_c (l_file s))) bands) eqn:F.
  - assert (FF : Forall (fun b => 0 <= b < g_c (l_file s)) bands).
    { apply Forall_forall. intros b Hb. rewrite forallb_forall in F. apply F in Hb. lia. }
    rewrite window_ok by assumption. rewrite mark_image_shown by exact Hm. cbn [bind].
    assert (E : bs = bands).
    { unfold bs. rewrite <- Eb. transitivity (map (fun b => b) bands); [|apply map_id]. apply map_ext_in. intros b Hb. rewrite Forall_forall in FF. apply FF in Hb. unfold wrap. destruct (Z.ltb_spec b 0); lia. }
    now rewrite E.
  - unfold gdal_window. rewrite F, andb_false_r. intros X. rewrite Forall_forall in X.
    assert (forallb (fun b => (0 <=? b) && (b <? g_c (l_file s))) bands = true); [|congruence].
    apply forallb_forall. intros b Hb. apply X in Hb. lia.
Qed.


Lemma shape_ok (s : lazy V) : level_ok s -> shape s = Ok (g_h (l_file s) (l_overview s), g_w (l_file s) (l_overview s), g_c (l_file s)).
Proof.
  intros [H1 H2]. unfold shape. destruct (Z.eqb_spec (l_overview s) 0) as [->|N]; [reflexivity|]. cbn [negb].
  rewrite Z.min_l by lia. destruct (Z.eqb_spec (l_overview s) 0); [lia|]. cbn [negb]. rewrite Z.sub_diag. cbn.
  destruct (Z.ltb_spec (l_overview s) 0); [lia|]. reflexivity.
Qed.

Lemma read_bands_ok (s : lazy V) : level_ok s -> read_bands s = Ok (l_overview s).
Proof.
  intros [H1 H2]. unfold read_bands. destruct (Z.leb_spec (l_overview s) 0); [f_equal; lia|].
  destruct (Z.ltb_spec (g_count (l_file s)) (l_overview s)); [lia|reflexivity].
Qed.

Lemma read_ds_ok (s : lazy V) : level_ok s -> (0 < l_overview s -> g_ds (l_file s) (l_overview s) = true) -> read_ds s = Ok (l_overview s).
Proof.
  intros [H1 H2] H. unfold read_ds. destruct (Z.leb_spec (l_overview s) 0); [f_equal; lia|].
  destruct (Z.ltb_spec (g_count (l_file s)) (l_overview s)); [lia|]. now rewrite H by lia.
Qed.

Lemma request3 iy ix ic h w C : request [iy; ix; ic] h w C =
  (yp <- rectify iy h ;; xp <- rectify ix w ;; cp <- rectify ic C ;; yb <- bounds yp ;; xb <- bounds xp ;;
   Ok (band_indices cp C, (fst yb, fst xb, snd yb - fst yb, snd xb - fst xb))).
Proof. reflexivity. Qed.

Lemma request_ok index iy ix ic h w C : index = [iy; ix; ic] -> 0 <= h -> 0 <= w -> 0 <= C ->
  window_entry iy h -> window_entry ix w -> band_entry ic C -> selects iy h <> [] -> selects ix w <> [] ->
  exists bands y0 ny x0 nx, request index h w C = Ok (bands, (y0, x0, ny, nx)) /\
    map (wrap C) bands = selects ic C /\ Forall (fun b => - C <= b < C) bands /\
    selects iy h = span y0 ny /\ 0 <= y0 /\ 0 < ny /\ y0 + ny <= h /\
    selects ix w = span x0 nx /\ 0 <= x0 /\ 0 < nx /\ x0 + nx <= w.
Proof.
  intros -> Hh Hw HC Hy Hx Hc Sy Sx.
  destruct (rectify_window iy h Hh Hy Sy) as (y0 & ny & Ey & Ey' & ? & ? & ?).
  destruct (rectify_window ix w Hw Hx Sx) as (x0 & nx & Ex & Ex' & ? & ? & ?).
  destruct (rectify_bands ic C HC Hc) as (p & Ep & Ep' & Fp).
  exists (band_indices p C), y0, ny, x0, nx. rewrite request3, Ey. cbn [bind]. rewrite Ex. cbn [bind]. rewrite Ep. cbn [bind bounds fst snd].
  split; [repeat f_equal; lia|]. auto 12.
Qed.

Lemma getitem_ok fast upstream (s : lazy V) index iy ix ic :
  let f := l_file s in let o := l_overview s in
  level_ok s -> (0 < o -> fast = true -> g_ds f o = true) -> 0 <= g_h f o -> 0 <= g_w f o -> 0 <= g_c f ->
  In (l_method s) methods -> means 1 index iy ix ic ->
  window_entry iy (g_h f o) -> window_entry ix (g_w f o) -> band_entry ic (g_c f) ->
  let ys := selects iy (g_h f o) in let xs := selects ix (g_w f o) in let bs := selects ic (g_c f) in
  ys <> [] -> xs <> [] -> bs <> [] ->
  getitem veq promote fast upstream s index =
  Ok (mkR (Z.of_nat (List.length bs) =? 1) (Z.of_nat (List.length ys)) (Z.of_nat (List.length xs)) (Z.of_nat (List.length bs))
        (map (fun y => map (fun x => map (fun b => shown veq promote (l_method s) (g_nodata f o b) (g_pix f o y x b)) bs) xs) ys)).
Proof.
  intros f o Hl Hds Hh Hw HC Hm Hmeans Hy Hx Hc ys xs bs Sy Sx Sb.
  unfold getitem. rewrite (shape_ok s Hl). cbn [bind]. fold f o. rewrite (expand_means _ _ _ _ Hmeans). cbn [bind].
  destruct (request_ok [iy; ix; ic] iy ix ic (g_h f o) (g_w f o) (g_c f) eq_refl Hh Hw HC Hy Hx Hc Sy Sx)
    as (bands & y0 & ny & x0 & nx & E & Eb & Fb & Ey & ? & ? & ? & Ex & ? & ? & ?).
  rewrite E. cbn [bind]. fold (rename (l_method s)).
  assert (Hne : bands <> []) by (intros ->; apply Sb; unfold bs; now rewrite <- Eb).
  assert (HC' := compat_ok upstream s bands y0 x0 ny nx (l_method s) o (read_bands_ok s Hl) Hm Hne HC ltac:(lia) ltac:(lia) ltac:(assumption) ltac:(lia) ltac:(lia) ltac:(assumption) Fb).
  cbv zeta in HC'. fold f in HC'. rewrite Eb in HC'. fold bs in HC'.
  unfold ys, xs. rewrite Ey, Ex, !span_length, !Z2Nat.id by lia.
  destruct fast; [|exact HC'].
  assert (HF := fast_ok s bands y0 x0 ny nx (l_method s) o (read_ds_ok s Hl (fun H => Hds H eq_refl)) Hm Hne ltac:(lia) ltac:(lia) ltac:(assumption) ltac:(lia) ltac:(lia) ltac:(assumption)).
  cbv zeta in HF. fold f in HF. rewrite Eb in HF. fold bs in HF.
  destruct (fast_read veq promote s bands y0 x0 ny nx (rename (l_method s))) as [r|e]; [now rewrite HF|exact HC'].
Qed.

Lemma getitem_plain_ok (f : gfile V) index iy ix ic :
  0 <= g_h f 0 -> 0 <= g_w f 0 -> 0 <= g_c f ->
  ~ In IEllipsis index -> (exists k, [iy; ix; ic] = index ++ repeat INone k)%list ->
  window_entry iy (g_h f 0) -> window_entry ix (g_w f 0) -> band_entry ic (g_c f) ->
  (forall l, ic = IList l -> Forall (fun i => 0 <= i) l) ->
  let ys := selects iy (g_h f 0) in let xs := selects ix (g_w f 0) in let bs := selects ic (g_c f) in
  ys <> [] -> xs <> [] ->
  getitem_plain f index =
  Ok (mkR false (Z.of_nat (List.length ys)) (Z.of_nat (List.length xs)) (Z.of_nat (List.length bs))
        (map (fun y => map (fun x => map (fun b => SVal (g_pix f 0 y x b)) bs) xs) ys)).
Proof.
  intros Hh Hw HC Hn (k & Ei) Hy Hx Hc Hpos ys xs bs Sy Sx. unfold getitem_plain.
  assert (L := f_equal (@List.length idx) Ei). rewrite app_length, repeat_length in L. cbn in L.
  assert (E : (if Z.of_nat (List.length index) <? 3 then (index ++ repeat INone (Z.to_nat (3 - Z.of_nat (List.length index))))%list else index) = [iy; ix; ic]).
  { rewrite Ei. destruct (Z.ltb_spec (Z.of_nat (List.length index)) 3); [f_equal; f_equal; lia|]. replace k with O by lia. cbn. now rewrite app_nil_r. }
  rewrite E. clear E.
  destruct (request_ok [iy; ix; ic] iy ix ic (g_h f 0) (g_w f 0) (g_c f) eq_refl Hh Hw HC Hy Hx Hc Sy Sx)
    as (bands & y0 & ny & x0 & nx & E & Eb & Fb & Ey & ? & ? & ? & Ex & ? & ? & ?).
  assert (Fb' : Forall (fun b => 0 <= b < g_c f) bands).
  { rewrite request3 in E. apply bind_ok in E as (yp & _ & E). apply bind_ok in E as (xp & _ & E). apply bind_ok in E as (cp & Ec & E).
    apply bind_ok in E as (yb & _ & E). apply bind_ok in E as (xb & _ & E). injection E as <- _.
    destruct cp as [a b|l].
    - cbn [band_indices]. apply Forall_forall. intros z Hz. apply span_In in Hz. pose proof (slice_bound_range (g_c f) a HC). pose proof (slice_bound_range (g_c f) b HC). lia.
    - cbn [band_indices] in *. destruct ic; cbn in Ec; try discriminate; [destruct step; discriminate|]. injection Ec as ->.
      specialize (Hpos l eq_refl). rewrite Forall_forall in *. intros z Hz. specialize (Hpos z Hz). specialize (Fb z Hz). lia. }
  assert (Eb' : bands = bs).
  { unfold bs. rewrite <- Eb. rewrite <- (map_id bands) at 1. apply map_ext_in. intros b Hb. rewrite Forall_forall in Fb'. apply Fb' in Hb. unfold wrap. destruct (Z.ltb_spec b 0); lia. }
  rewrite E. cbn [bind]. rewrite window_ok by assumption. rewrite Eb'. unfold ys, xs. rewrite Ey, Ex, !span_length, !Z2Nat.id by lia.
  f_equal. f_equal. rewrite map_map. apply map_ext. intros y. rewrite map_map. apply map_ext. intros x. now rewrite map_map.
Qed.
End Reads.

(** ** Storing integers in floats *)

Lemma store_exact p v : 0 < p -> Z.abs v <= 2 ^ p -> store p v = v.
Proof.
  intros Hp Hv. unfold store. destruct (Z.eq_dec (Z.abs v) (2 ^ p)) as [E|N].
  - rewrite E, Z.log2_pow2 by lia. replace (Z.max 0 (p + 1 - p)) with 1 by lia.
    change (2 ^ 1) with 2. assert (D : (2 | v)).
    { apply Z.divide_abs_r. rewrite E. exists (2 ^ (p - 1)). rewrite Z.mul_comm, <- Z.pow_succ_r by lia. f_equal. lia. }
    destruct D as (q & ->). rewrite Z.div_mul by lia. replace (q * 2 - q * 2) with 0 by lia. cbn. lia.
  - assert (L : Z.log2 (Z.abs v) < p).
    { destruct (Z.eq_dec (Z.abs v) 0) as [->|Nz]; [cbn; lia|]. apply Z.log2_lt_pow2; lia. }
    replace (Z.max 0 (Z.log2 (Z.abs v) + 1 - p)) with 0 by lia. change (2 ^ 0) with 1. rewrite Z.div_1_r.
    replace (v - v * 1) with 0 by lia. cbn. lia.
Qed.

Lemma store_type t v : in_type t v -> store (float_bits t) v = v.
Proof. intros H. apply store_exact; destruct t; cbn in *; lia. Qed.

(** ** Cache *)
Section CacheProofs.
Context {K V : Type} (keq : K -> K -> bool) (keq_spec : forall a b, keq a b = true <-> a = b).

Lemma keq_refl k : keq k k = true.
Proof. now apply keq_spec. Qed.

Lemma od_get_In k d (v : V) : od_get keq k d = Some v -> In (k, v) d.
Proof.
  induction d as [|[k' v'] d IH]; cbn; [discriminate|]. destruct (keq k' k) eqn:E.
  - intros [= ->]. apply keq_spec in E. subst. now left.
  - right. now apply IH.
Qed.
Lemma od_get_None k (d : list (K * V)) : od_get keq k d = None -> ~ In k (map fst d).
Proof.
  induction d as [|[k' v'] d IH]; cbn; [auto|]. destruct (keq k' k) eqn:E; [discriminate|].
  intros H [X|X]; [subst; rewrite keq_refl in E; discriminate|now apply IH].
Qed.

Definition without (k : K) (l : list K) : list K := filter (fun k' => negb (keq k' k)) l.
Lemma od_remove_keys k (d : list (K * V)) : map fst (od_remove keq k d) = without k (map fst d).
Proof. unfold od_remove, without. induction d as [|[k' v] d IH]; cbn; [reflexivity|]. destruct (keq k' k); cbn; now rewrite IH. Qed.
Lemma without_notin k l : ~ In k l -> without k l = l.
Proof.
  induction l as [|a l IH]; [reflexivity|]. intros H. cbn. destruct (keq a k) eqn:E.
  - apply keq_spec in E. destruct H. now left.
  - cbn. f_equal. apply IH. intros X. apply H. now right.
Qed.
Lemma without_In k l x : In x (without k l) <-> In x l /\ x <> k.
Proof.
  unfold without. rewrite filter_In. split; intros [A B]; (split; [exact A|]).
  - intros ->. now rewrite keq_refl in B.
  - destruct (keq x k) eqn:E; [apply keq_spec in E; contradiction|reflexivity].
Qed.
Lemma rev_without k l : rev (without k l) = without k (rev l).
Proof. induction l as [|a l IH]; [reflexivity|]. cbn. unfold without in *. rewrite filter_app. cbn. rewrite <- IH. destruct (keq a k); cbn; [now rewrite app_nil_r|reflexivity]. Qed.
Lemma without_NoDup k l : NoDup l -> NoDup (without k l).
Proof. apply NoDup_filter. Qed.
Lemma without_length k l : NoDup l -> In k l -> S (List.length (without k l)) = List.length l.
Proof.
  induction l as [|a l IH]; intros Hn Hi; [destruct Hi|]. inversion Hn; subst. cbn. destruct (keq a k) eqn:E; cbn.
  - apply keq_spec in E. subst. fold (without k l). now rewrite without_notin.
  - destruct Hi as [->|Hi]; [rewrite keq_refl in E; discriminate|]. f_equal. now apply IH.
Qed.

Lemma evict_spec n (d : list (K * V)) : 0 <= n ->
  evict n d = skipn (List.length d - Z.to_nat n) d.
Proof.
  intros Hn. induction d as [|kv d IH]; [reflexivity|]. cbn [evict]. destruct (Z.ltb_spec n (Z.of_nat (List.length (kv :: d)))) as [H|H].
  - rewrite IH. cbn [List.length] in *. replace (S (List.length d) - Z.to_nat n)%nat with (S (List.length d - Z.to_nat n)) by lia. reflexivity.
  - replace (List.length (kv :: d) - Z.to_nat n)%nat with O by lia. reflexivity.
Qed.

Lemma firstn_In_incl {A} n (l : list A) x : In x (firstn n l) -> In x l.
Proof. intros H. rewrite <- (firstn_skipn n l). apply in_or_app. now left. Qed.

Lemma firstn_In_incl_skip {A} n (l : list A) x : In x (skipn n l) -> In x l.
Proof. intros H. rewrite <- (firstn_skipn n l). apply in_or_app. now right. Qed.

Lemma NoDup_firstn {A} n (l : list A) : NoDup l -> NoDup (firstn n l).
Proof.
  revert l. induction n as [|n IH]; intros l H; [constructor|]. destruct H as [|a l Ha H]; [constructor|]. cbn. constructor; [|now apply IH].
  intros X. apply Ha. now apply firstn_In_incl in X.
Qed.
Lemma firstn_In_S {A} n (l : list A) x : In x (firstn n l) -> In x (firstn (S n) l).
Proof.
  revert n. induction l as [|a l IH]; intros [|n] X; cbn in *; try tauto. destruct X as [->|X]; [now left|]. right. now apply IH.
Qed.

Lemma firstn_without k l n : NoDup l -> In k (firstn n l) ->
  firstn n (k :: without k l) = k :: without k (firstn n l).
Proof.
  intros Hn Hi. destruct n as [|n]; [destruct Hi|]. cbn [firstn]. f_equal.
  assert (G : forall m l, NoDup l -> In k (firstn (S m) l) -> firstn m (without k l) = without k (firstn (S m) l)).
  { clear - keq_spec. intros m. induction m as [|m IH]; intros l Hn Hi.
    - destruct l as [|a l]; [destruct Hi|]. cbn in Hi. destruct Hi as [->|[]]. cbn. now rewrite keq_refl.
    - destruct l as [|a l]; [destruct Hi|]. inversion Hn; subst. change (firstn (S (S m)) (a :: l)) with (a :: firstn (S m) l) in *. cbn [without filter] in *.
      destruct (keq a k) eqn:E; cbn [negb].
      + apply keq_spec in E. subst a. fold (without k l). fold (without k (firstn (S m) l)).
        rewrite (without_notin k l), (without_notin k (firstn (S m) l)); [reflexivity| |assumption]. intros X. apply H1. eapply (firstn_In_incl). exact X.
      + destruct Hi as [->|Hi]; [rewrite keq_refl in E; discriminate|]. cbn [firstn]. f_equal. now apply IH. }
  apply G; assumption.
Qed.

Lemma firstn_without_out k l n : ~ In k (firstn n l) -> firstn n (without k l) = firstn n l.
Proof.
  revert l. induction n as [|n IH]; intros l H; [reflexivity|]. destruct l as [|a l]; [reflexivity|]. cbn in *.
  destruct (keq a k) eqn:E; [apply keq_spec in E; destruct H; now left|]. cbn. f_equal. apply IH. intros X. apply H. now right.
Qed.

Lemma distinct_In l x : In x (distinct keq l) <-> In x l.
Proof.
  induction l as [|k l IH]; [reflexivity|]. cbn. fold (without k (distinct keq l)). rewrite without_In, IH.
  split; [intros [->|[A _]]; auto|]. intros [->|A]; [auto|]. destruct (keq x k) eqn:E; [apply keq_spec in E; auto|].
  right. split; [exact A|]. intros ->. now rewrite keq_refl in E.
Qed.
Lemma distinct_NoDup l : NoDup (distinct keq l).
Proof.
  induction l as [|k l IH]; cbn; constructor.
  - fold (without k (distinct keq l)). rewrite without_In. tauto.
  - now apply NoDup_filter.
Qed.

Lemma uses_app es es' : uses (es ++ es') = (uses es ++ @uses K V es')%list.
Proof. induction es as [|[| |] es IH]; cbn; now rewrite ?IH. Qed.

Lemma recent_use (es : list (@event K V)) e k : uses [e] = [k] -> recent keq (es ++ [e]) = k :: without k (recent keq es).
Proof. intros H. unfold recent. rewrite uses_app, H, rev_app_distr. reflexivity. Qed.
Lemma recent_miss (es : list (@event K V)) k : recent keq (es ++ [Missed k]) = recent keq es.
Proof. unfold recent. rewrite uses_app. cbn. now rewrite app_nil_r. Qed.

Lemma last_written_app (es : list (@event K V)) e k : last_written keq (es ++ [e]) k =
  match e with Wrote k' v => if keq k' k then Some v else last_written keq es k | _ => last_written keq es k end.
Proof.
  induction es as [|e0 es IH]; cbn [app last_written].
  - destruct e as [k' v| |]; reflexivity.
  - rewrite IH. destruct e as [k' v| |]; [|destruct (last_written keq es k); reflexivity..]. destruct (keq k' k); [reflexivity|].
    now destruct (last_written keq es k).
Qed.

Definition lru_ok (n : nat) (d : list (K * V)) (es : list (@event K V)) : Prop :=
  rev (map fst d) = firstn n (recent keq es) /\ forall k v, In (k, v) d -> last_written keq es k = Some v.

Lemma put_In k v (d : list (K * V)) k' v' : In (k', v') (od_put keq k v d) -> (k' = k /\ v' = v) \/ (k' <> k /\ In (k', v') d).
Proof.
  unfold od_put, od_remove. rewrite in_app_iff, filter_In. intros [[H1 H2]|[H|[]]].
  - right. split; [|exact H1]. intros ->. cbn in H2. now rewrite keq_refl in H2.
  - injection H as -> ->. auto.
Qed.

Lemma rev_skipn {A} (l : list A) n : rev (skipn (List.length l - n) l) = firstn n (rev l).
Proof.
  rewrite firstn_rev. reflexivity.
Qed.

Lemma lru_set n d es k v : 0 < n -> lru_ok (Z.to_nat n) d es -> lru_ok (Z.to_nat n) (evict n (od_put keq k v d)) (es ++ [Wrote k v]).
Proof.
  intros Hn [H1 H2]. assert (ND : NoDup (recent keq es)) by apply distinct_NoDup. rewrite evict_spec by lia. split.
  - rewrite <- skipn_map. rewrite <- (map_length fst (od_put keq k v d)). rewrite rev_skipn. unfold od_put. rewrite map_app, od_remove_keys. cbn [map fst].
    rewrite rev_app_distr. cbn [rev app]. rewrite rev_without, H1. rewrite (recent_use es (Wrote k v) k eq_refl).
    set (R := recent keq es) in *. set (m := Z.to_nat n) in *; assert (Hm : (0 < m)%nat) by lia; clearbody m.
    destruct (in_dec (fun a b => match keq a b as x return (keq a b = x -> {a = b} + {a <> b}) with
        | true => fun E => left (proj1 (keq_spec a b) E) | false => fun E => right (fun H => eq_ind true (fun x => if x then True else False) I false (eq_trans (eq_sym (proj2 (keq_spec a b) H)) E)) end eq_refl) k (firstn m R)) as [Hi|Hi].
    + rewrite (firstn_without k R m ND Hi). apply firstn_all2. cbn [List.length]. rewrite without_length; [apply firstn_le_length| |exact Hi].
      now apply NoDup_firstn.
    + rewrite (without_notin k (firstn m R)) by exact Hi. destruct m as [|m]; [lia|]. rewrite !firstn_cons. f_equal.
      rewrite firstn_without_out.
      * rewrite firstn_firstn. f_equal. lia.
      * intros X. apply Hi. now apply firstn_In_S.
  - intros k' v' H. apply (firstn_In_incl_skip) in H. apply put_In in H as [[-> ->]|[N H]]; rewrite last_written_app.
    + now rewrite keq_refl.
    + destruct (keq k k') eqn:E; [apply keq_spec in E; congruence|]. now apply H2.
Qed.

Lemma lru_get n d es k v : lru_ok n d es -> od_get keq k d = Some v -> lru_ok n (od_put keq k v d) (es ++ [Read k v]).
Proof.
  intros [H1 H2] Hg. assert (ND : NoDup (recent keq es)) by apply distinct_NoDup.
  assert (Hi : In k (firstn n (recent keq es))).
  { rewrite <- H1, <- in_rev. apply od_get_In in Hg. now apply (in_map fst) in Hg. }
  split.
  - unfold od_put. rewrite map_app, od_remove_keys. cbn [map fst]. rewrite rev_app_distr. cbn [rev app].
    rewrite rev_without, H1, (recent_use es (Read k v) k eq_refl), firstn_without by assumption. reflexivity.
  - intros k' v' H. rewrite last_written_app. apply put_In in H as [[-> ->]|[N H]]; [|now apply H2]. apply H2. now apply od_get_In.
Qed.

Definition event_ok (n : nat) (past : list (@event K V)) (e : @event K V) : Prop :=
  match e with
  | Wrote _ _ => True
  | Read k v => In k (firstn n (recent keq past)) /\ last_written keq past k = Some v
  | Missed k => ~ In k (firstn n (recent keq past))
  end.

Lemma crun_ok n os : 0 < n -> forall d past d' es, lru_ok (Z.to_nat n) d past -> crun keq n d os = (d', es) ->
  lru_ok (Z.to_nat n) d' (past ++ es) /\ Forall2 answers os es /\
  forall i e, nth_error es i = Some e -> event_ok (Z.to_nat n) (past ++ firstn i es) e.
Proof.
  intros Hn. induction os as [|o os IH]; intros d past d' es Hd E; cbn [crun] in E.
  - injection E as <- <-. rewrite app_nil_r. split; [exact Hd|]. split; [constructor|]. intros [|i] e X; discriminate.
  - destruct (cstep keq n d o) as [d1 e1] eqn:E1. destruct (crun keq n d1 os) as [d2 es2] eqn:E2. injection E as <- <-.
    assert (H : lru_ok (Z.to_nat n) d1 (past ++ [e1]) /\ answers o e1 /\ event_ok (Z.to_nat n) past e1).
    { destruct o as [k v|k]; cbn in E1.
      - injection E1 as <- <-. split; [now apply lru_set|]. cbn. auto.
      - destruct (od_get keq k d) as [v|] eqn:G; injection E1 as <- <-.
        + split; [now apply lru_get|]. destruct Hd as [H1 H2]. cbn. split; [reflexivity|]. apply od_get_In in G. split; [|now apply H2].
          rewrite <- H1, <- in_rev. now apply (in_map fst) in G.
        + destruct Hd as [H1 H2]. split; [|split; [reflexivity|]].
          * split; [now rewrite recent_miss|]. intros k' v' X. rewrite last_written_app. now apply H2.
          * cbn. rewrite <- H1, <- in_rev. now apply od_get_None. }
    destruct H as (L & A & Ev). specialize (IH d1 (past ++ [e1])%list d2 es2 L E2) as (I1 & I2 & I3).
    rewrite <- app_assoc in I1. cbn in I1. split; [exact I1|]. split; [now constructor|].
    intros [|i] e X; cbn in X.
    + injection X as <-. cbn. now rewrite app_nil_r.
    + specialize (I3 i e X). rewrite <- app_assoc in I3. exact I3.
Qed.
End CacheProofs.

(** ** prepare *)

Lemma load_metadata_idem src m : load_metadata src (load_metadata src m) = load_metadata src m.
Proof.
  unfold load_metadata at 2 3. destruct (is_some (m_dsize m) && is_some (m_channels m) && is_some (m_overviews m) && full_size (m_dsize m)) eqn:E.
  - unfold load_metadata. now rewrite E.
  - destruct src as [h w c n|h w [c|]]; unfold load_metadata; cbn [m_dsize m_channels m_overviews];
      destruct (full_size (m_dsize m)) eqn:F, (m_channels m); cbn; rewrite ?F; cbn;
      try reflexivity; destruct (m_dsize m) as [[[?|] [?|]]|]; cbn in *; try discriminate; reflexivity.
Qed.

Fixpoint ptree_ind' (P : ptree -> Prop) (HL : forall s m, P (PLoad s m)) (HN : forall m cs, Forall P cs -> P (PNode m cs)) (t : ptree) : P t :=
  match t with
  | PLoad s m => HL s m
  | PNode m cs => HN m cs ((fix go l : Forall P l := match l with [] => Forall_nil _ | t :: l' => Forall_cons _ (ptree_ind' P HL HN t) (go l') end) cs)
  end.

Lemma prepare_idem t : prepare (prepare t) = prepare t.
Proof.
  induction t as [s m|m cs IH] using ptree_ind'; cbn; [now rewrite load_metadata_idem|]. f_equal. rewrite map_map.
  apply map_ext_in. now apply Forall_forall.
Qed.

(** ** Shapes *)

Lemma zip_longest_nil_r l : zip_longest l [] = map (fun a => nonemax a None) l.
Proof. induction l as [|a l IH]; [reflexivity|]. cbn. now rewrite IH. Qed.
Lemma zip_longest_nil_l l : zip_longest [] l = map (fun b => nonemax None b) l.
Proof. destruct l as [|b l]; reflexivity. Qed.

(* entry i of the zip *)
Lemma zip_longest_nth l1 l2 i : nth_error (zip_longest l1 l2) i =
  match nth_error l1 i, nth_error l2 i with
  | None, None => None
  | a, b => Some (nonemax (match a with Some a => a | None => None end) (match b with Some b => b | None => None end))
  end.
Proof.
  revert l2 i. induction l1 as [|a l1 IH]; intros l2 i.
  - rewrite zip_longest_nil_l, nth_error_map. replace (nth_error (@nil (option Z)) i) with (@None (option Z)) by now destruct i.
    now destruct (nth_error l2 i).
  - destruct l2 as [|b l2].
    + rewrite zip_longest_nil_r, nth_error_map. replace (nth_error (@nil (option Z)) i) with (@None (option Z)) by now destruct i.
      now destruct (nth_error (a :: l1) i).
    + destruct i as [|i]; [reflexivity|]. cbn [zip_longest nth_error]. apply IH.
Qed.

Lemma extent_app shapes sh i z : extent (shapes ++ [sh]) i z <-> extent shapes i z \/ (exists s, sh = Some s /\ nth_error s i = Some (Some z)).
Proof.
  unfold extent. split.
  - intros (s & H & E). apply in_app_or in H as [H|[H|[]]]; [left; eauto|right; eauto].
  - intros [(s & H & E)|(s & -> & E)]; exists s; (split; [apply in_or_app|exact E]); [now left|right; now left].
Qed.
Lemma has_axis_app shapes sh i : has_axis (shapes ++ [sh]) i <-> has_axis shapes i \/ (exists s, sh = Some s /\ (i < List.length s)%nat).
Proof.
  unfold has_axis. split.
  - intros (s & H & E). apply in_app_or in H as [H|[H|[]]]; [left; eauto|right; eauto].
  - intros [(s & H & E)|(s & -> & E)]; exists s; (split; [apply in_or_app|exact E]); [now left|right; now left].
Qed.

Lemma largest_ok shapes i : nonzero shapes -> axis_ok shapes i (nth_error (largest_shape shapes) i).
Proof.
  unfold largest_shape. induction shapes as [|sh shapes IH] using rev_ind; intros Hz.
  - cbn. destruct i; cbn; intros (s & [] & _).
  - rewrite fold_left_app. cbn [fold_left].
    assert (Hz' : nonzero shapes) by (intros j z H; apply (Hz j z); apply extent_app; now left).
    specialize (IH Hz'). set (L := fold_left _ shapes []) in *.
    destruct sh as [s|].
    + rewrite zip_longest_nth. 
      assert (Hs : forall z, nth_error s i = Some (Some z) -> z <> 0).
      { intros z E. apply (Hz i z). apply extent_app. right. eauto. }
      assert (Hx : forall z, extent (shapes ++ [Some s]) i z <-> extent shapes i z \/ nth_error s i = Some (Some z)).
      { intros z. rewrite extent_app. split; intros [H|H]; auto; [destruct H as (s' & [= <-] & H); auto|right; eauto]. }
      assert (Ha : has_axis (shapes ++ [Some s]) i <-> has_axis shapes i \/ nth_error s i <> None).
      { rewrite has_axis_app, nth_error_Some. split; intros [H|H]; auto; [destruct H as (s' & [= <-] & H); auto|right; eauto]. }
      destruct (nth_error L i) as [[a|]|] eqn:EL, (nth_error s i) as [[b|]|] eqn:Es; cbn [axis_ok] in *; cbn [nonemax py_or] in *.
      * destruct IH as [I1 I2]. split.
        { rewrite Hx. destruct (Z.max_spec a b) as [[_ ->]|[_ ->]]; auto. }
        { intros z Hz0. apply Hx in Hz0 as [H|[= <-]]; [apply I2 in H|]; lia. }
      * destruct IH as [I1 I2]. assert (a <> 0) by (apply (Hz' i); exact I1). destruct (Z.eqb_spec a 0); [contradiction|]. cbn. split; [apply Hx; auto|].
        intros z Hz0. apply Hx in Hz0 as [H0|H0]; [now apply I2|discriminate].
      * destruct IH as [I1 I2]. assert (a <> 0) by (apply (Hz' i); exact I1). destruct (Z.eqb_spec a 0); [contradiction|]. cbn. split; [apply Hx; auto|].
        intros z Hz0. apply Hx in Hz0 as [H0|H0]; [now apply I2|discriminate].
      * destruct IH as [I1 I2]. split; [apply Hx; auto|]. intros z Hz0. apply Hx in Hz0 as [H0|[= <-]]; [now apply I2 in H0|lia].
      * destruct IH as [I1 I2]. split; [apply Ha; auto|]. intros z Hz0. apply Hx in Hz0 as [H0|H0]; [now apply I2 in H0|discriminate].
      * destruct IH as [I1 I2]. split; [apply Ha; auto|]. intros z Hz0. apply Hx in Hz0 as [H0|H0]; [now apply I2 in H0|discriminate].
      * split; [apply Hx; auto|]. intros z Hz0. apply Hx in Hz0 as [H0|[= <-]]; [|lia]. destruct IH.
        destruct H0 as (s' & A & B). exists s'. split; [exact A|]. apply nth_error_Some. congruence.
      * split; [apply Ha; right; discriminate|]. intros z Hz0. apply Hx in Hz0 as [H0|H0]; [|discriminate]. destruct IH.
        destruct H0 as (s' & A & B). exists s'. split; [exact A|]. apply nth_error_Some. congruence.
      * intros H. apply Ha in H as [H|H]; [contradiction|congruence].
    + assert (Hx : forall z, extent (shapes ++ [None]) i z <-> extent shapes i z).
      { intros z. rewrite extent_app. split; [intros [H|(s & [=] & _)]; exact H|auto]. }
      assert (Ha : has_axis (shapes ++ [None]) i <-> has_axis shapes i).
      { rewrite has_axis_app. split; [intros [H|(s & [=] & _)]; exact H|auto]. }
      destruct (nth_error L i) as [[a|]|]; cbn [axis_ok] in *.
      * split; [apply Hx, IH|]. intros z H. apply Hx in H. now apply IH.
      * split; [apply Ha, IH|]. intros z H. apply Hx in H. now apply IH in H.
      * now rewrite Ha.
Qed.

Lemma axis_ok_unique shapes shapes' i r r' : (forall z, extent shapes i z <-> extent shapes' i z) -> (has_axis shapes i <-> has_axis shapes' i) ->
  axis_ok shapes i r -> axis_ok shapes' i r' -> r = r'.
Proof.
  intros Hx Ha H H'.
  assert (G : forall z, extent shapes i z -> has_axis shapes i).
  { intros z (s & A & B). exists s. split; [exact A|]. apply nth_error_Some. congruence. }
  destruct r as [[a|]|], r' as [[b|]|]; cbn in *; try reflexivity.
  - destruct H as [H1 H2], H' as [H3 H4]. apply Hx in H3. apply H2 in H3. apply Hx in H1. apply H4 in H1. f_equal. f_equal. lia.
  - destruct H as [H1 _], H' as [_ H4]. apply Hx in H1. now apply H4 in H1.
  - destruct H as [H1 _]. apply G in H1. apply Ha in H1. contradiction.
  - destruct H as [_ H2], H' as [H3 _]. apply Hx in H3. now apply H2 in H3.
  - destruct H as [H1 _]. apply Ha in H1. contradiction.
  - destruct H' as [H3 _]. apply Hx in H3. apply G in H3. contradiction.
  - destruct H' as [H3 _]. apply Ha in H3. contradiction.
Qed.

Lemma nth_error_ext {A} (l l' : list A) : (forall i, nth_error l i = nth_error l' i) -> l = l'.
Proof.
  revert l'. induction l as [|a l IH]; intros [|b l'] H; [reflexivity|specialize (H O); discriminate|specialize (H O); discriminate|].
  pose proof (H O) as H0. cbn in H0. injection H0 as ->. f_equal. apply IH. intros i. exact (H (S i)).
Qed.

Lemma largest_perm shapes shapes' : nonzero shapes -> Permutation shapes shapes' -> largest_shape shapes = largest_shape shapes'.
Proof.
  intros Hz HP. apply nth_error_ext. intros i.
  assert (E : forall i z, extent shapes i z <-> extent shapes' i z).
  { intros j z. unfold extent. split; intros (s & A & B); exists s; (split; [|exact B]); [now apply (Permutation_in _ HP)|now apply (Permutation_in _ (Permutation_sym HP))]. }
  apply (axis_ok_unique shapes shapes' i).
  - apply E.
  - unfold has_axis. split; intros (s & A & B); exists s; (split; [|exact B]); [now apply (Permutation_in _ HP)|now apply (Permutation_in _ (Permutation_sym HP))].
  - now apply largest_ok.
  - apply largest_ok. intros j z H. apply (Hz j). now apply E.
Qed.

(** ** prepare, continued *)
Lemma load_fills src m : fills src m (load_metadata src m).
Proof.
  unfold fills, complete.
  destruct src as [h w c n|h w [c|]]; destruct m as [[[[w0|] [h0|]]|] [c0|] [n0|]]; unfold load_metadata; cbn;
    (split; [intros; congruence|]); (split; [intros N; try reflexivity; exfalso; eapply N; reflexivity|]);
    (split; [intros; congruence|]); (split; [intros; congruence|]); split;
    try (intros _; reflexivity); try (intros N; exfalso; apply N; repeat split; eauto; fail);
    intros ((? & ? & D) & (? & F) & (? & G)); congruence.
Qed.

Lemma prepare_prepared t : prepared t (prepare t).
Proof.
  induction t as [s m|m cs IH] using ptree_ind'; cbn.
  - constructor. apply load_fills.
  - constructor. induction IH; cbn; constructor; auto.
Qed.
