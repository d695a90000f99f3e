(* Properties of lazily indexed files, of the cache dictionary, of prepare and of
   shape merging. *)
From Verif Require Import Py PyProofs LazyModel LazySpec LazyProofs.
From Coq Require Import ZifyBool Permutation.
Local Open Scope Z_scope.

(** A 4 x 6 image with two bands and one overview of 2 x 3; the sample at level l,
    row y, column x, band b is 1000 l + 100 y + 10 x + b; band 1 has nodata 121. *)
Definition ex_file (ds : bool) : gfile Z :=
  mkG (fun l => if l =? 0 then 4 else 2) (fun l => if l =? 0 then 6 else 3) 2
      (fun l y x b => 1000 * l + 100 * y + 10 * x + b)
      (fun l b => if b =? 1 then Some 121 else None) 1 (fun _ => ds).
Definition up : result (rarr Z) := Err OtherError.

(** * C63: indexing reads the selected rows, columns and bands *)

Theorem C63_gdal {V} (veq : V -> V -> bool) (promote : V -> V) fast upstream (s : lazy V) index iy ix ic :
  let f := l_file s in let o := l_overview s in
  level_ok s -> (0 < o -> fast = true -> g_ds f o = true) ->
  0 <= g_h f o -> 0 <= g_w f o -> 0 <= g_c f -> In (l_method s) methods ->
  means 1 index iy ix ic ->
  window_entry iy (g_h f o) -> window_entry ix (g_w f o) -> band_entry ic (g_c f) ->
  let ys := selects iy (g_h f o) in let xs := selects ix (g_w f o) in let bs := selects ic (g_c f) in
  ys <> [] -> xs <> [] -> bs <> [] ->
  exists r, getitem veq promote fast upstream s index = Ok r /\
    r_h r = Z.of_nat (List.length ys) /\ r_w r = Z.of_nat (List.length xs) /\ r_c r = Z.of_nat (List.length bs) /\
    r_data r = map (fun y => map (fun x => map (fun b =>
                 shown veq promote (l_method s) (g_nodata f o b) (g_pix f o y x b)) bs) xs) ys.
Proof.
  intros. eexists. split; [apply getitem_ok with (iy := iy) (ix := ix) (ic := ic); assumption|]. cbn. auto.
Qed.
Print Assumptions C63_gdal.

Example C63_gdal_example : forall fast,
  getitem Z.eqb (fun v => v) fast up (open (ex_file true) None None) [ISlice (Some 1) (Some 3) None; IEllipsis; IList [-1; 0]]
  = Ok (mkR false 2 6 2 (map (fun y => map (fun x => [SVal (100 * y + 10 * x + 1); SVal (100 * y + 10 * x)]) [0; 1; 2; 3; 4; 5]) [1; 2])) /\
  means 1 [ISlice (Some 1) (Some 3) None; IEllipsis; IList [-1; 0]] (ISlice (Some 1) (Some 3) None) full (IList [-1; 0]).
Proof.
  intros fast. split; [destruct fast; vm_compute; reflexivity|]. right. exists [ISlice (Some 1) (Some 3) None], [IList [-1; 0]], 1%nat.
  cbn. repeat split; auto; try lia. intros [H|[H|[]]]; discriminate.
Qed.

(* no bands at all: the fast path gives an empty array of the right size *)
Theorem C63_no_bands {V} (veq : V -> V -> bool) (promote : V -> V) upstream (s : lazy V) index iy ix ic :
  let f := l_file s in let o := l_overview s in
  level_ok s -> 0 <= g_h f o -> 0 <= g_w f o -> 0 <= g_c f ->
  means 1 index iy ix ic ->
  window_entry iy (g_h f o) -> window_entry ix (g_w f o) -> band_entry ic (g_c f) ->
  let ys := selects iy (g_h f o) in let xs := selects ix (g_w f o) in
  ys <> [] -> xs <> [] -> selects ic (g_c f) = [] ->
  exists r, getitem veq promote true upstream s index = Ok r /\
    r_h r = Z.of_nat (List.length ys) /\ r_w r = Z.of_nat (List.length xs) /\ r_c r = 0 /\
    r_data r = map (fun y => map (fun x => []) xs) ys.
Proof.
  intros f o Hl Hh Hw HC Hm Hy Hx Hc ys xs Sy Sx Sb. unfold getitem. rewrite (shape_ok s Hl). cbn [bind]. fold f o.
  rewrite (expand_means _ _ _ _ Hm). cbn [bind].
  destruct (request_ok [iy; ix; ic] iy ix ic (g_h f o) (g_w f o) (g_c f) eq_refl Hh Hw HC Hy Hx Hc Sy Sx)
    as (bands & y0 & ny & x0 & nx & E & Eb & Fb & Ey & ? & ? & ? & Ex & ? & ? & ?).
  rewrite E. cbn [bind]. rewrite Sb in Eb. destruct bands; [|discriminate]. unfold fast_read.
  eexists. split; [reflexivity|]. cbn [r_h r_w r_c r_data]. unfold ys, xs. rewrite Ey, Ex, !span_length, !Z2Nat.id by lia. auto.
Qed.
Print Assumptions C63_no_bands.

Example C63_no_bands_example :
  getitem Z.eqb (fun v => v) true up (open (ex_file true) None None) [IInt 0; ISlice None (Some 2) None; ISlice None (Some 0) None]
  = Ok (mkR false 1 2 0 [[[]; []]]).
Proof. reflexivity. Qed.

(* the spectral and rasterio readers *)
Theorem C63_plain {V} (f : gfile V) index iy ix ic :
  0 <= g_h f 0 -> 0 <= g_w f 0 -> 0 <= g_c f ->
  ~ In IEllipsis index -> (exists k, [iy; ix; ic] = index ++ repeat INone k)%list ->
  window_entry iy (g_h f 0) -> window_entry ix (g_w f 0) -> band_entry ic (g_c f) ->
  (forall l, ic = IList l -> Forall (fun i => 0 <= i) l) ->
  let ys := selects iy (g_h f 0) in let xs := selects ix (g_w f 0) in let bs := selects ic (g_c f) in
  ys <> [] -> xs <> [] ->
  exists r, getitem_plain f index = Ok r /\ r_2d r = false /\
    r_h r = Z.of_nat (List.length ys) /\ r_w r = Z.of_nat (List.length xs) /\ r_c r = Z.of_nat (List.length bs) /\
    r_data r = map (fun y => map (fun x => map (fun b => SVal (g_pix f 0 y x b)) bs) xs) ys.
Proof.
  intros. eexists. split; [apply getitem_plain_ok with (iy := iy) (ix := ix) (ic := ic); assumption|]. cbn. auto 6.
Qed.
Print Assumptions C63_plain.

Example C63_plain_example :
  getitem_plain (ex_file true) [ISlice (Some 3) None None; ISlice (Some 1) (Some (-3)) None]
  = Ok (mkR false 1 2 2 [[[SVal 310; SVal 311]; [SVal 320; SVal 321]]]).
Proof. reflexivity. Qed.

(** * C85: an Ellipsis may stand for no axis at all *)

Theorem C85_empty_ellipsis_refuted :
  ~ (forall (s : lazy Z) index iy ix ic, level_ok s -> l_method s = None -> means 0 index iy ix ic ->
       window_entry iy (g_h (l_file s) (l_overview s)) -> window_entry ix (g_w (l_file s) (l_overview s)) -> band_entry ic (g_c (l_file s)) ->
       selects iy (g_h (l_file s) (l_overview s)) <> [] -> selects ix (g_w (l_file s) (l_overview s)) <> [] -> selects ic (g_c (l_file s)) <> [] ->
       (forall l, g_ds (l_file s) l = true) ->
       exists r, getitem Z.eqb (fun v => v) true up s index = Ok r).
Proof.
  intros H. destruct (H (open (ex_file true) None None) [full; full; IEllipsis; full] full full full) as (r & E);
    try (vm_compute; discriminate); try exact I; try reflexivity; try (split; vm_compute; discriminate).
  right. exists [full; full], [full], 0%nat. cbn. repeat split; auto. intros [X|[X|[X|[]]]]; discriminate.
Qed.
Print Assumptions C85_empty_ellipsis_refuted.

(* an Ellipsis standing for at least one axis works *)
Theorem C85_empty_ellipsis_partial {V} (veq : V -> V -> bool) (promote : V -> V) fast upstream (s : lazy V) pre post k iy ix ic :
  let f := l_file s in let o := l_overview s in
  level_ok s -> (0 < o -> fast = true -> g_ds f o = true) ->
  0 <= g_h f o -> 0 <= g_w f o -> 0 <= g_c f -> In (l_method s) methods ->
  ~ In IEllipsis (pre ++ post) -> (1 <= k)%nat -> [iy; ix; ic] = (pre ++ repeat full k ++ post)%list ->
  window_entry iy (g_h f o) -> window_entry ix (g_w f o) -> band_entry ic (g_c f) ->
  selects iy (g_h f o) <> [] -> selects ix (g_w f o) <> [] -> selects ic (g_c f) <> [] ->
  getitem veq promote fast upstream s (pre ++ IEllipsis :: post) = getitem veq promote fast upstream s [iy; ix; ic] /\
  exists r, getitem veq promote fast upstream s [iy; ix; ic] = Ok r.
Proof.
  intros f o Hl Hd Hh Hw Hc Hm Hn Hk E Wy Wx Wc Sy Sx Sc.
  assert (Hi : ~ In IEllipsis [iy; ix; ic]).
  { rewrite E. intros X. apply Hn. apply in_app_or in X as [X|X]; [apply in_or_app; auto|]. apply in_app_or in X as [X|X]; [|apply in_or_app; auto].
    apply repeat_spec in X. discriminate X. }
  rewrite (getitem_ok veq promote fast upstream s (pre ++ IEllipsis :: post) iy ix ic Hl Hd Hh Hw Hc Hm); try assumption.
  2: right; exists pre, post, k; auto.
  rewrite (getitem_ok veq promote fast upstream s [iy; ix; ic] iy ix ic Hl Hd Hh Hw Hc Hm); try assumption.
  - split; [reflexivity|]. eexists. reflexivity.
  - left. split; [exact Hi|]. exists O. now rewrite app_nil_r.
Qed.
Print Assumptions C85_empty_ellipsis_partial.

Example C85_empty_ellipsis_example :
  getitem Z.eqb (fun v => v) true up (open (ex_file true) None None) [IEllipsis; IInt 1]
  = getitem Z.eqb (fun v => v) true up (open (ex_file true) None None) [full; full; IInt 1].
Proof. reflexivity. Qed.

(** * C64: negative slice starts *)

Theorem C64_negative_start_refuted :
  ~ (forall (s : lazy Z) n, level_ok s -> l_method s = None -> 0 < n <= g_h (l_file s) (l_overview s) ->
       (forall l, g_ds (l_file s) l = true) -> 0 < g_w (l_file s) (l_overview s) -> 0 < g_c (l_file s) ->
       exists r, getitem Z.eqb (fun v => v) true up s [ISlice (Some (- n)) None None] = Ok r /\ r_h r = n).
Proof.
  intros H. destruct (H (open (ex_file true) None None) 1) as (r & E & E'); try reflexivity; try (split; vm_compute; congruence).
  vm_compute in E. injection E as <-. discriminate E'.
Qed.
Print Assumptions C64_negative_start_refuted.

(* a negative start always reads from the first row; that is what numpy does
   exactly when the start lies before the image *)
Theorem C64_negative_start_partial {V} (veq : V -> V -> bool) (promote : V -> V) fast upstream (s : lazy V) a b rest :
  level_ok s -> a < 0 -> ~ In IEllipsis rest -> (List.length rest <= 2)%nat ->
  getitem veq promote fast upstream s (ISlice (Some a) b None :: rest) = getitem veq promote fast upstream s (ISlice None b None :: rest) /\
  (let H := g_h (l_file s) (l_overview s) in
   a <= - H -> 0 <= H -> selects (ISlice (Some a) b None) H = selects (ISlice None b None) H) /\
  (let H := g_h (l_file s) (l_overview s) in
   - H < a -> selects (ISlice (Some a) None None) H <> selects (ISlice None None None) H).
Proof.
  intros Hl Ha Hn Hr. split; [|split].
  - unfold getitem. destruct (shape s) as [[[h w] C]|]; [|reflexivity]. cbn [bind].
    assert (E : forall i, i <> IEllipsis -> expand_index (i :: rest) = Ok (i :: rest ++ repeat full (Z.to_nat (3 - Z.of_nat (S (List.length rest)))))).
    { intros i Hi. unfold expand_index. rewrite filter_ellipsis by (intros [X|X]; [now apply Hi|contradiction]).
      change (List.length (i :: rest)) with (S (List.length rest)). destruct (Z.ltb_spec (Z.of_nat (S (List.length rest))) 3) as [H|H]; [reflexivity|].
      replace (3 - Z.of_nat (S (List.length rest))) with 0 by lia. cbn. now rewrite app_nil_r. }
    rewrite !E by discriminate. cbn [bind].
    assert (R : forall l, request (ISlice (Some a) b None :: l) h w C = request (ISlice None b None :: l) h w C).
    { intros l. assert (Er : rectify (ISlice (Some a) b None) h = rectify (ISlice None b None) h) by (cbn [rectify]; now replace (Z.max 0 a) with 0 by lia).
      unfold request. change (py_get (ISlice (Some a) b None :: l) 0) with (@Ok idx (ISlice (Some a) b None)).
      change (py_get (ISlice None b None :: l) 0) with (@Ok idx (ISlice None b None)). cbn [bind]. rewrite Er. reflexivity. }
    now rewrite R.
  - intros H Hb HH. cbn [selects]. rewrite !slice_span by exact HH. cbn [lo]. unfold slice_bound at 1 2.
    destruct (Z.ltb_spec a 0); [|lia]. now replace (Z.max 0 (a + H)) with 0 by lia.
  - intros H Hb E. cbn [selects] in E. rewrite !slice_span in E by lia. apply (f_equal (@List.length Z)) in E. rewrite !span_length in E.
    cbn [lo hi] in E. unfold slice_bound in E. destruct (Z.ltb_spec a 0); lia.
Qed.
Print Assumptions C64_negative_start_partial.

Example C64_negative_start_example :
  getitem Z.eqb (fun v => v) true up (open (ex_file true) None None) [ISlice (Some (-1)) None None; IInt 0]
  = getitem Z.eqb (fun v => v) true up (open (ex_file true) None None) [full; IInt 0] /\
  selects (ISlice (Some (-1)) None None) 4 = [3].
Proof. split; reflexivity. Qed.

(** * C65: the cache is a bounded LRU *)

Theorem C65_lru {K V} (keq : K -> K -> bool) (keq_spec : forall a b, keq a b = true <-> a = b)
    (n : Z) (os : list (@op K V)) (d : list (K * V)) (es : list (@event K V)) :
  cache keq n os = Ok (d, es) ->
  Forall2 answers os es /\
  (* what is kept: the n most recently used keys with their last values *)
  Z.of_nat (List.length d) <= n /\
  rev (map fst d) = firstn (Z.to_nat n) (recent keq es) /\
  (forall k v, In (k, v) d -> last_written keq es k = Some v) /\
  (* what reads answer: the last value written, if the key is among the n most
     recently used ones, and a miss otherwise *)
  (forall i k v, nth_error es i = Some (Read k v) ->
     In k (firstn (Z.to_nat n) (recent keq (firstn i es))) /\ last_written keq (firstn i es) k = Some v) /\
  (forall i k, nth_error es i = Some (Missed k) -> ~ In k (firstn (Z.to_nat n) (recent keq (firstn i es)))).
Proof.
  unfold cache. destruct (Z.ltb_spec 0 n) as [Hn|Hn]; [|discriminate]. intros E. injection E as E.
  assert (L0 : lru_ok keq (Z.to_nat n) (@nil (K * V)) []).
  { split; [now destruct (Z.to_nat n)|]. intros k v []. }
  destruct (crun_ok keq keq_spec n os Hn [] [] d es L0 E) as ((H1 & H2) & H3 & H4). cbn [app] in *.
  split; [exact H3|]. split.
  { rewrite <- (map_length fst), <- rev_length, H1. pose proof (firstn_le_length (Z.to_nat n) (recent keq es)). lia. }
  split; [exact H1|]. split; [exact H2|]. split.
  - intros i k v Hi. exact (H4 i _ Hi).
  - intros i k Hi. exact (H4 i _ Hi).
Qed.
Print Assumptions C65_lru.

Theorem C65_defined {K V} (keq : K -> K -> bool) (n : Z) (os : list (@op K V)) :
  (exists r, cache keq n os = Ok r) <-> 0 < n.
Proof. unfold cache. destruct (Z.ltb_spec 0 n); split; intros H'; try lia; [eauto|destruct H' as (r & H'); discriminate]. Qed.
Print Assumptions C65_defined.

Example C65_lru_example :
  cache Z.eqb 2 [OSet 1 10; OSet 2 20; OGet 1; OSet 3 30; OGet 2; OGet 1]
  = Ok ([(3, 30); (1, 10)], [Wrote 1 10; Wrote 2 20; Read 1 10; Wrote 3 30; Missed 2; Read 1 10]).
Proof. reflexivity. Qed.

(** * C66: nodata *)

(* the sample of a result at row i, column j, band k *)
Definition sample_at {V} (r : rarr V) (i j k : nat) : option (sample V) :=
  match nth_error (r_data r) i with
  | Some row => match nth_error row j with Some px => nth_error px k | None => None end
  | None => None
  end.

Theorem C66_marks {V} (veq : V -> V -> bool) (promote : V -> V) fast upstream (s : lazy V) index iy ix ic i j k y x b :
  let f := l_file s in let o := l_overview s in
  level_ok s -> (0 < o -> fast = true -> g_ds f o = true) ->
  0 <= g_h f o -> 0 <= g_w f o -> 0 <= g_c f -> In (l_method s) methods ->
  means 1 index iy ix ic ->
  window_entry iy (g_h f o) -> window_entry ix (g_w f o) -> band_entry ic (g_c f) ->
  nth_error (selects iy (g_h f o)) i = Some y -> nth_error (selects ix (g_w f o)) j = Some x -> nth_error (selects ic (g_c f)) k = Some b ->
  let v := g_pix f o y x b in
  let nodata := exists n, g_nodata f o b = Some n /\ veq v n = true in
  exists r, getitem veq promote fast upstream s index = Ok r /\
  match l_method s with
  | None => sample_at r i j k = Some (SVal v)
  | Some m =>
      if String.eqb m "ma" then
        (nodata -> sample_at r i j k = Some (SMask v)) /\ (~ nodata -> sample_at r i j k = Some (SVal v))
      else
        (nodata -> sample_at r i j k = Some SNan) /\ (~ nodata -> sample_at r i j k = Some (SVal (promote v)))
  end.
Proof.
  intros f o Hl Hd Hh Hw HC Hm Hmeans Hy Hx Hc Ei Ej Ek v nodata.
  assert (N : forall A (l : list A) n a, nth_error l n = Some a -> l <> []) by (intros A [|a l] [|n] a' X; discriminate).
  eexists. split; [apply getitem_ok with (iy := iy) (ix := ix) (ic := ic); try assumption; eauto|].
  unfold sample_at. cbn [r_data]. rewrite nth_error_map. fold f o. rewrite Ei. cbn [option_map]. rewrite nth_error_map, Ej. cbn [option_map].
  rewrite nth_error_map, Ek. cbn [option_map]. fold v. unfold shown, is_nodata.
  destruct (l_method s) as [m|]; [|reflexivity].
  unfold nodata. destruct (g_nodata f o b) as [n|].
  - destruct (veq v n) eqn:E.
    + destruct (String.eqb m "ma"); (split; [reflexivity|]); intros X; destruct X; eauto.
    + destruct (String.eqb m "ma"); (split; [|reflexivity]); intros (n' & [= <-] & X); congruence.
  - destruct (String.eqb m "ma"); (split; [|reflexivity]); intros (n' & X & _); discriminate.
Qed.
Print Assumptions C66_marks.

Example C66_marks_example :
  option_map (fun m => match getitem Z.eqb (fun v => v) true up (open (ex_file true) m None) [ISlice (Some 1) (Some 2) None; ISlice (Some 1) (Some 3) None] with
             | Ok r => r_data r | Err _ => [] end) (Some (Some "float"%string))
  = Some [[[SVal 110; SVal 111]; [SVal 120; SNan]]] /\
  option_map (fun m => match getitem Z.eqb (fun v => v) false up (open (ex_file true) m None) [ISlice (Some 1) (Some 2) None; ISlice (Some 1) (Some 3) None] with
             | Ok r => r_data r | Err _ => [] end) (Some (Some "ma"%string))
  = Some [[[SVal 110; SVal 111]; [SVal 120; SMask 121]]].
Proof. split; reflexivity. Qed.

(* the promotion to a float type changes no integer sample *)
Theorem C66_promotion_exact t v : in_type t v -> store (float_bits t) v = v.
Proof. apply store_type. Qed.
Print Assumptions C66_promotion_exact.

Example C66_promotion_example : store (float_bits U32) 4294967295 = 4294967295 /\ store 24 4294967295 = 4294967296 /\ store 24 16777217 = 16777216.
Proof. repeat split; reflexivity. Qed.

(** * C67: relative overviews *)

Theorem C67_compose {V} (s : lazy V) (a b : Z) :
  get_overview (get_overview s a) b = get_overview s (a + b) /\
  get_overview s 0 = s /\
  num_overviews (get_overview s a) = num_overviews s - a.
Proof.
  destruct s as [f o m]. unfold get_overview, get_absolute_overview, num_overviews. cbn. repeat split; [f_equal; lia|lia].
Qed.
Print Assumptions C67_compose.

(* the relative overview a of a handle at level o has the size of level o + a and
   reads from it, as long as a is at most num_overviews *)
Theorem C67_level {V} (veq : V -> V -> bool) (promote : V -> V) fast upstream (s : lazy V) (a : Z) :
  level_ok s -> 0 <= a <= num_overviews s ->
  let f := l_file s in let o := l_overview s + a in
  (fast = true -> g_ds f o = true) -> 0 < g_h f o -> 0 < g_w f o -> 0 < g_c f -> In (l_method s) methods ->
  shape (get_overview s a) = Ok (g_h f o, g_w f o, g_c f) /\
  exists r, getitem veq promote fast upstream (get_overview s a) [full] = Ok r /\
    r_data r = map (fun y => map (fun x => map (fun b =>
      shown veq promote (l_method s) (g_nodata f o b) (g_pix f o y x b)) (zseq (Z.to_nat (g_c f)))) (zseq (Z.to_nat (g_w f o)))) (zseq (Z.to_nat (g_h f o))).
Proof.
  intros Hl Ha f o Hd Hh Hw HC Hm.
  assert (Ho : l_overview (get_overview s a) = o) by (unfold get_overview, get_absolute_overview, o; cbn; lia).
  assert (Hf : l_file (get_overview s a) = f) by reflexivity.
  assert (Hm' : l_method (get_overview s a) = l_method s) by reflexivity.
  assert (Hl' : level_ok (get_overview s a)).
  { unfold level_ok in *. rewrite Ho, Hf. unfold num_overviews in Ha. unfold o, f in *. lia. }
  split; [rewrite (shape_ok _ Hl'), Ho, Hf; reflexivity|].
  assert (S : forall D, 0 < D -> selects full D = zseq (Z.to_nat D) /\ selects full D <> []).
  { intros D HD. assert (E : selects full D = zseq (Z.to_nat D)).
    { cbn [selects full]. unfold py_slice. rewrite zseq_length. cbn. rewrite Z.sub_0_r, Nat2Z.id. apply firstn_all2. now rewrite zseq_length. }
    split; [exact E|]. rewrite E. intros X. apply (f_equal (@List.length Z)) in X. rewrite zseq_length in X. cbn in X. lia. }
  eexists. split.
  { apply (getitem_ok veq promote fast upstream (get_overview s a) [full] full full full); rewrite ?Hf, ?Ho, ?Hm'; try assumption; try lia; try exact I.
    - left. split; [intros [X|[]]; discriminate|]. now exists 2%nat.
    - now apply S.
    - now apply S.
    - now apply S. }
  cbn [r_data]. rewrite Hf, Ho, Hm'.
  rewrite (proj1 (S (g_h f o) Hh)), (proj1 (S (g_w f o) Hw)), (proj1 (S (g_c f) HC)). reflexivity.
Qed.
Print Assumptions C67_level.

Example C67_level_example :
  let s := get_overview (open (ex_file true) None None) 1 in
  num_overviews s = 0 /\ shape s = Ok (2, 3, 2) /\
  getitem Z.eqb (fun v => v) true up s [IInt 0; IInt 2] = Ok (mkR false 1 1 2 [[[SVal 1020; SVal 1021]]]).
Proof. repeat split; reflexivity. Qed.

(** * C82: the number of axes of a result *)

Theorem C82_always_3d_refuted :
  ~ (forall (s : lazy Z) index r, level_ok s -> getitem Z.eqb (fun v => v) true up s index = Ok r -> r_2d r = false).
Proof.
  intros H. specialize (H (open (ex_file true) None None) [full; full; ISlice (Some 0) (Some 1) None] _ ltac:(split; vm_compute; discriminate) ltac:(vm_compute; reflexivity)).
  vm_compute in H. discriminate H.
Qed.
Print Assumptions C82_always_3d_refuted.

(* 2-d exactly when one band is selected; the other readers are always 3-d *)
Theorem C82_always_3d_partial {V} (veq : V -> V -> bool) (promote : V -> V) fast upstream (s : lazy V) index iy ix ic :
  let f := l_file s in let o := l_overview s in
  level_ok s -> (0 < o -> fast = true -> g_ds f o = true) ->
  0 <= g_h f o -> 0 <= g_w f o -> 0 <= g_c f -> In (l_method s) methods ->
  means 1 index iy ix ic ->
  window_entry iy (g_h f o) -> window_entry ix (g_w f o) -> band_entry ic (g_c f) ->
  selects iy (g_h f o) <> [] -> selects ix (g_w f o) <> [] -> (1 < List.length (selects ic (g_c f)))%nat ->
  exists r, getitem veq promote fast upstream s index = Ok r /\ r_2d r = false.
Proof.
  intros f o Hl Hd Hh Hw HC Hm Hmeans Hy Hx Hc Sy Sx Sb.
  eexists. split; [apply getitem_ok with (iy := iy) (ix := ix) (ic := ic); try assumption|].
  - intros X. fold f in X. rewrite X in Sb. cbn in Sb. lia.
  - cbn [r_2d]. fold f. lia.
Qed.
Print Assumptions C82_always_3d_partial.

Example C82_always_3d_example :
  rmap r_2d (getitem Z.eqb (fun v => v) true up (open (ex_file true) None None) [IInt 1; IInt 1]) = Ok false /\
  rmap r_2d (getitem Z.eqb (fun v => v) true up (open (ex_file true) None None) [IInt 1; IInt 1; IInt 1]) = Ok true.
Proof. split; reflexivity. Qed.

(** * C83: the fast path and the compatible path agree *)

Theorem C83_paths_agree_refuted :
  ~ (forall (s : lazy Z) index r r', level_ok s -> l_method s = None ->
       getitem Z.eqb (fun v => v) true up s index = Ok r -> getitem Z.eqb (fun v => v) false up s index = Ok r' -> r_data r = r_data r').
Proof.
  intros H. specialize (H (open (ex_file false) None (Some 1)) [IInt 0; IInt 0] _ _ ltac:(split; vm_compute; discriminate) eq_refl
    ltac:(vm_compute; reflexivity) ltac:(vm_compute; reflexivity)).
  vm_compute in H. discriminate H.
Qed.
Print Assumptions C83_paths_agree_refuted.

(* they agree when every overview band can name its dataset *)
Theorem C83_paths_agree_partial {V} (veq : V -> V -> bool) (promote : V -> V) upstream (s : lazy V) index iy ix ic :
  let f := l_file s in let o := l_overview s in
  level_ok s -> (0 < o -> g_ds f o = true) ->
  0 <= g_h f o -> 0 <= g_w f o -> 0 <= g_c f -> In (l_method s) methods ->
  means 1 index iy ix ic ->
  window_entry iy (g_h f o) -> window_entry ix (g_w f o) -> band_entry ic (g_c f) ->
  selects iy (g_h f o) <> [] -> selects ix (g_w f o) <> [] -> selects ic (g_c f) <> [] ->
  exists r, getitem veq promote true upstream s index = Ok r /\ getitem veq promote false upstream s index = Ok r.
Proof.
  intros f o Hl Hd. intros. eexists. split; apply getitem_ok with (iy := iy) (ix := ix) (ic := ic); auto; discriminate.
Qed.
Print Assumptions C83_paths_agree_partial.

Example C83_paths_agree_example :
  rmap r_data (getitem Z.eqb (fun v => v) true up (open (ex_file false) None (Some 1)) [IInt 0; IInt 0]) = Ok [[[SVal 0; SVal 1]]] /\
  rmap r_data (getitem Z.eqb (fun v => v) false up (open (ex_file false) None (Some 1)) [IInt 0; IInt 0]) = Ok [[[SVal 1000; SVal 1001]]].
Proof. split; reflexivity. Qed.

(** * C84: overviews a file does not have *)

Theorem C84_missing_overview_refuted :
  ~ (forall (s : lazy Z), 0 <= g_count (l_file s) -> ~ level_ok s -> exists e, shape s = Err e).
Proof.
  intros H.
  destruct (H (mkL (mkG (fun _ => 4) (fun _ => 6) 2 (fun _ _ _ _ => 0) (fun _ _ => None) 0 (fun _ => true)) 3 None)) as (e & E).
  - cbn. lia.
  - unfold level_ok. cbn. lia.
  - vm_compute in E. discriminate E.
Qed.
Print Assumptions C84_missing_overview_refuted.

(* the shape is refused if the file has any overview, and reading samples is
   always refused *)
Theorem C84_missing_overview_partial {V} (veq : V -> V -> bool) (promote : V -> V) fast upstream (s : lazy V) index :
  0 <= g_count (l_file s) -> ~ level_ok s ->
  (0 < g_count (l_file s) -> exists e, shape s = Err e) /\
  (forall r, getitem veq promote fast upstream s index = Ok r -> r_c r = 0).
Proof.
  intros Hc Hl. unfold level_ok in Hl.
  assert (Hs : l_overview s < 0 \/ 0 < g_count (l_file s) -> exists e, shape s = Err e).
  { intros H. unfold shape. destruct (Z.eqb_spec (l_overview s) 0) as [E|N]; [lia|]. cbn [negb].
    destruct (Z.eqb_spec (Z.min (l_overview s) (g_count (l_file s))) 0) as [E|N']; [lia|]. cbn [negb].
    destruct (Z.eqb_spec (l_overview s - Z.min (l_overview s) (g_count (l_file s))) 0) as [E|N'']; cbn [negb]; [|cbn [bind]; now eauto].
    destruct (Z.ltb_spec (Z.min (l_overview s) (g_count (l_file s))) 0); [cbn [bind]; now eauto|lia]. }
  split; [intros H; apply Hs; lia|]. intros r E.
  destruct (Z.ltb_spec (l_overview s) 0) as [H|H].
  { destruct (Hs (or_introl H)) as (e & Es). unfold getitem in E. rewrite Es in E. discriminate E. }
  assert (Hd : read_ds s = Err ValueError /\ read_bands s = Err ValueError).
  { unfold read_ds, read_bands. destruct (Z.leb_spec (l_overview s) 0); [lia|]. destruct (Z.ltb_spec (g_count (l_file s)) (l_overview s)); [auto|lia]. }
  destruct Hd as [Hd Hb]. unfold getitem in E. apply bind_ok in E as ([[h w] C] & _ & E). apply bind_ok in E as (ix & _ & E).
  apply bind_ok in E as ([bands [[[yo xo] ys] xs]] & _ & E).
  unfold compat_read in E. rewrite Hb in E. cbn [bind] in E. destruct fast; [|discriminate].
  unfold fast_read in E. destruct bands as [|b bands].
  - injection E as <-. reflexivity.
  - rewrite Hd in E. discriminate E.
Qed.
Print Assumptions C84_missing_overview_partial.

Example C84_missing_overview_example :
  shape (open (ex_file true) None (Some 2)) = Err ValueError /\
  getitem Z.eqb (fun v => v) true up (get_overview (open (ex_file true) None None) 2) [full] = Err ValueError.
Proof. split; reflexivity. Qed.

(** * C61: prepare *)

Theorem C61_prepare_keeps_refuted :
  ~ (forall s m n, m_overviews m = Some n -> m_overviews (load_metadata s m) = Some n).
Proof.
  intros H. specialize (H (SGdal 4 6 2 1) (mkM (Some (Some 6, Some 4)) None (Some 0)) 0 eq_refl). discriminate H.
Qed.
Print Assumptions C61_prepare_keeps_refuted.

Theorem C61_prepare_half_size_refuted :
  ~ (forall s m w, m_dsize m = Some (Some w, None) -> exists h, m_dsize (load_metadata s m) = Some (Some w, h)).
Proof.
  intros H. destruct (H (SGdal 4 6 2 1) (mkM (Some (Some 7, None)) None None) 7 eq_refl) as (h & E). discriminate E.
Qed.
Print Assumptions C61_prepare_half_size_refuted.

(* what prepare keeps and fills in, on every load of a tree, and nothing else *)
Theorem C61_prepare_keeps_partial t : prepared t (prepare t).
Proof. apply prepare_prepared. Qed.
Print Assumptions C61_prepare_keeps_partial.

Theorem C61_prepare_idempotent t : prepare (prepare t) = prepare t.
Proof. apply prepare_idem. Qed.
Print Assumptions C61_prepare_idempotent.

Example C61_prepare_example :
  prepare (PNode (mkM None None None) [PLoad (SGdal 4 6 2 1) (mkM (Some (None, Some 9)) (Some 3) None); PLoad (SPlain 5 8 None) (mkM (Some (Some 1, Some 1)) None None)])
  = PNode (mkM None None None) [PLoad (SGdal 4 6 2 1) (mkM (Some (Some 6, Some 4)) (Some 3) (Some 1)); PLoad (SPlain 5 8 None) (mkM (Some (Some 1, Some 1)) (Some 1) (Some 0))].
Proof. reflexivity. Qed.

(** * C69: shape merging *)

Theorem C69_largest_shape_refuted :
  ~ (forall shapes shapes', Permutation shapes shapes' -> largest_shape shapes = largest_shape shapes') /\
  ~ (forall shapes i, axis_ok shapes i (nth_error (largest_shape shapes) i)).
Proof.
  split.
  - intros H. specialize (H [Some [None; Some 0]; Some [None; None]] [Some [None; None]; Some [None; Some 0]] (perm_swap _ _ _)). discriminate H.
  - intros H. specialize (H [Some [Some 0]; Some [None]] O). cbn in H. destruct H as [_ H]. apply (H 0). exists [Some 0]. split; [now left|reflexivity].
Qed.
Print Assumptions C69_largest_shape_refuted.

Theorem C69_largest_shape_partial shapes : nonzero shapes ->
  (forall i, axis_ok shapes i (nth_error (largest_shape shapes) i)) /\
  (forall shapes', Permutation shapes shapes' -> largest_shape shapes = largest_shape shapes').
Proof. intros H. split; [intros i; now apply largest_ok|intros shapes'; now apply largest_perm]. Qed.
Print Assumptions C69_largest_shape_partial.

Example C69_largest_shape_example :
  largest_shape [Some [Some 3; None]; None; Some [Some 2; Some 5; None]; Some [Some 4]] = [Some 4; Some 5; None] /\
  nonzero [Some [Some 3; None]; None; Some [Some 2; Some 5; None]; Some [Some 4]].
Proof.
  split; [reflexivity|]. intros i z (s & [H|[H|[H|[H|[]]]]] & E); try discriminate; injection H as <-;
    destruct i as [|[|[|i]]]; cbn in E; try discriminate; try (injection E as <-; discriminate); destruct i; discriminate.
Qed.
