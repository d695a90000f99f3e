(* Properties of reads that may fail, of preloaded bands and of palettes. *)
From Verif Require Import Py PyProofs LazyModel LazySpec LazyProofs ReadModel ReadSpec ReadProofs.
From Coq Require Import ZifyBool.
Local Open Scope Z_scope.

(** A 2 x 3 file with two bands and one overview of 1 x 2; the sample at level l,
    row y, column x, band b is 100 l + 30 b + 10 y + x; band 1 has nodata 31; band 0
    has a palette at level 0. *)
Definition ex_gfile : gfile Z :=
  mkG (fun l => if l =? 0 then 2 else 1) (fun l => if l =? 0 then 3 else 2) 2
      (fun l y x b => 100 * l + 30 * b + 10 * y + x)
      (fun l b => if b =? 1 then Some 31 else if b =? 0 then Some 1 else None) 1 (fun _ => true).
Definition ex_palette : palette Z :=
  mkPal 1 (map (fun i => [i; 100 + i; 200 + i; 255]) (zseq 13)).
Definition ex_pfile : pfile Z := mkP ex_gfile false false (fun l b => if (l =? 0) && (b =? 0) then Some ex_palette else None).
(* only the calls of the list fail *)
Definition failing (l : list (nat * outcome)) (n : nat) : outcome :=
  match find (fun p => Nat.eqb (fst p) n) l with Some p => snd p | None => Works end.

(** * C145: reads that fail are made up for *)

(* A selection of existing rows, columns and bands gives the right samples although
   one of the calls to GDAL fails, whichever it is; with the fast path, although two
   do. *)
Theorem C145_failures_partial {V} (veq : V -> V -> bool) (promote : V -> V) index_of fate fast (p : pfile V) o method index iy ix ic n :
  let f := p_file p in
  p_sub p = false -> 0 <= o <= g_count f -> (0 < o -> fast = true -> g_ds f o = true) ->
  0 <= g_h f o -> 0 <= g_w f o -> 0 <= g_c f -> In method methods -> means 1 index iy ix ic ->
  window_entry iy (g_h f o) -> window_entry ix (g_w f o) -> band_entry ic (g_c f) -> counts_from_start ic ->
  let ys := selects iy (g_h f o) in let xs := selects ix (g_w f o) in let bs := selects ic (g_c f) in
  ys <> [] -> xs <> [] -> bs <> [] ->
  at_most fate (if fast then 2 else 1)%nat ->
  exists n', getitem_io veq promote index_of fate fast (kwimage_read veq promote index_of fate p o) p o method index n
    = (Ok (right_array veq promote f o method ys xs bs), n').
Proof.
  intros f Hs Ho Hds Hh Hw HC Hm Hmeans Hy Hx Hc Hfs ys xs bs Sy Sx Sb Hbad.
  apply getitem_io_ok; try assumption. intros y0 x0 ny nx Ey Ex Hny Hnx Hfit Fb.
  replace (right_array _ _ _ _ _ _ _ _) with (window_array veq promote f o method y0 x0 ny nx (selects ic (g_c f))).
  - now apply kwimage_reliable.
  - unfold window_array, right_array. rewrite Ey, Ex, !span_length, !Z2Nat.id by lia. reflexivity.
Qed.
Print Assumptions C145_failures_partial.

(* one failing call, at any position and of either kind *)
Lemma failing_one i x : at_most (failing [(i, x)]) 1.
Proof.
  intros l ND F. assert (H : incl l [i]).
  { intros j Hj. rewrite Forall_forall in F. apply F in Hj. unfold failing in Hj. cbn in Hj. destruct (Nat.eqb_spec i j); [left; assumption|]. cbn in Hj. congruence. }
  exact (NoDup_incl_length ND H).
Qed.
Example C145_failures_case : forall i x,
  exists n', getitem_io Z.eqb (fun v => v) Some (failing [(i, x)]) false (kwimage_read Z.eqb (fun v => v) Some (failing [(i, x)]) ex_pfile 0) ex_pfile 0 (Some "float"%string)
    [ISlice (Some 1) None None; IEllipsis] 0%nat
  = (Ok (mkR false 1 3 2 [[[SVal 10; SVal 40]; [SVal 11; SVal 41]; [SVal 12; SVal 42]]]), n').
Proof.
  intros i x. apply (C145_failures_partial Z.eqb (fun v => v) Some (failing [(i, x)]) false ex_pfile 0 (Some "float"%string)
    [ISlice (Some 1) None None; IEllipsis] (ISlice (Some 1) None None) full full 0%nat);
    try reflexivity; try exact I; try apply failing_one; try discriminate.
  all: try (cbn; lia).
  - right. right. left. reflexivity.
  - right. exists [ISlice (Some 1) None None], [], 2%nat. cbn. repeat split; auto. intros [H|[]]; discriminate.
Qed.
(* the second call fails: the first reader gives up and kwimage's reads again *)
Example C145_fallback : getitem_io Z.eqb (fun v => v) Some (failing [(1%nat, GivesNone)]) false
    (kwimage_read Z.eqb (fun v => v) Some (failing [(1%nat, GivesNone)]) ex_pfile 0) ex_pfile 0 None [IInt 0; IInt 1; full] 0%nat
  = (Ok (mkR false 1 1 2 [[[SVal 1; SVal 31]]]), 4%nat).
Proof. vm_compute. reflexivity. Qed.

(* Without failures the readers are those of the other theorems about indexing. *)
Theorem C145_no_failure {V} (veq : V -> V -> bool) (promote : V -> V) index_of fate fast up (p : pfile V) o method index n :
  (forall k, fate k = Works) -> p_sub p = false -> 0 <= g_c (p_file p) ->
  fst (getitem_io veq promote index_of fate fast (fun _ _ _ => pure up) p o method index n)
  = getitem veq promote fast up (mkL (p_file p) o method) index.
Proof. apply getitem_io_all. Qed.
Print Assumptions C145_no_failure.
Example C145_no_failure_case : fst (getitem_io Z.eqb (fun v => v) Some (fun _ => Works) false (fun _ _ _ => pure (Err OtherError)) ex_pfile 1 (Some "ma"%string)
    [full; full; IList [-1]] 0%nat)
  = Ok (mkR true 1 2 1 [[[SVal 130]; [SVal 131]]]).
Proof. vm_compute. reflexivity. Qed.

(* The full statement, for every index that selects existing rows, columns and bands,
   is false: bands counted from the end are unknown to kwimage's reader, so one
   failing call raises. *)
Theorem C145_failures_refuted : ~ forall fate (p : pfile Z) method index iy ix ic n,
  let f := p_file p in
  p_sub p = false -> 0 <= g_count f -> 0 <= g_h f 0 -> 0 <= g_w f 0 -> 0 <= g_c f -> In method methods -> means 1 index iy ix ic ->
  window_entry iy (g_h f 0) -> window_entry ix (g_w f 0) -> band_entry ic (g_c f) ->
  selects iy (g_h f 0) <> [] -> selects ix (g_w f 0) <> [] -> selects ic (g_c f) <> [] ->
  at_most fate 1 ->
  exists n', getitem_io Z.eqb (fun v => v) Some fate false (kwimage_read Z.eqb (fun v => v) Some fate p 0) p 0 method index n
    = (Ok (right_array Z.eqb (fun v => v) f 0 method (selects iy (g_h f 0)) (selects ix (g_w f 0)) (selects ic (g_c f))), n').
Proof.
  intros H. specialize (H (failing [(0%nat, Raises)]) ex_pfile None [full; full; IList [-1]] full full (IList [-1]) 0%nat). cbv zeta in H.
  destruct H as (n' & H); try reflexivity; try exact I; try apply failing_one; try (cbn; lia); try (vm_compute; discriminate).
  - now left.
  - left. split; [|exists 0%nat; reflexivity]. intros [X|[X|[X|[]]]]; discriminate.
  - repeat constructor; cbn; lia.
Qed.
Print Assumptions C145_failures_refuted.

(* two failing calls can make an index raise when the fast path is off, as it is by default *)
Theorem C145_two_failures_refuted : ~ forall fate (p : pfile Z) index n,
  p_sub p = false -> at_most fate 2 -> (exists n', getitem_io Z.eqb (fun v => v) Some (fun _ => Works) false (fun _ _ _ => raise OtherError) p 0 None index n = (Ok (right_array Z.eqb (fun v => v) (p_file p) 0 None [0] [1] [0; 1]), n')) ->
  exists r n', getitem_io Z.eqb (fun v => v) Some fate false (kwimage_read Z.eqb (fun v => v) Some fate p 0) p 0 None index n = (Ok r, n').
Proof.
  intros H. destruct (H (failing [(0%nat, GivesNone); (1%nat, GivesNone)]) ex_pfile [IInt 0; IInt 1; full] 0%nat) as (r & n' & E); try reflexivity.
  - intros l ND F. apply (NoDup_incl_length ND (l' := [0; 1]%nat)). intros j Hj. rewrite Forall_forall in F. apply F in Hj.
    destruct j as [|[|j]]; [now left|right; now left|]. exfalso. apply Hj. reflexivity.
  - eexists. vm_compute. reflexivity.
  - vm_compute in E. discriminate.
Qed.
Print Assumptions C145_two_failures_refuted.

(** * C146: preloaded bands change nothing *)

(* For every level the file has and any schedule of failures, handing the bands of
   the level and their nodata values to the reader gives what the reader finds when
   it looks them up itself, after the same calls. *)
Theorem C146_preloaded {V} (veq : V -> V -> bool) (promote : V -> V) index_of fate (p : pfile V) o ignore bands w m n :
  0 <= o <= g_count (p_file p) -> Forall (fun b => 0 <= b < g_c (p_file p)) bands ->
  exists lvl, read_bands (mkL (p_file p) o None) = Ok lvl /\
    vendored veq promote index_of fate p (OInt o) None ignore (Some bands) w m
      (Some (map (fun b => (lvl, b)) bands)) (Some (map (g_nodata (p_file p) lvl) bands)) n
    = vendored veq promote index_of fate p (OInt o) None ignore (Some bands) w m None None n.
Proof.
  intros Ho Hb. exists o. split; [now apply (read_bands_ok (mkL (p_file p) o None))|].
  unfold vendored. destruct (p_sub p); [reflexivity|]. destruct bands as [|b bands].
  - cbn. unfold andthen, pure. reflexivity.
  - rewrite resolve_bands_ok by (assumption || discriminate). unfold andthen, pure. rewrite map_map. reflexivity.
Qed.
Print Assumptions C146_preloaded.
Example C146_preloaded_case :
  vendored Z.eqb (fun v => v) Some (failing [(0%nat, GivesNone)]) ex_pfile (OInt 1) None true (Some [1]) (Some (0, 1, 1, 1)) (Some "ma"%string)
    (Some [(1, 1)]) (Some [Some 31]) 0%nat
  = (Ok (mkR true 1 1 1 [[[SVal 131]]], 1), 2%nat).
Proof. vm_compute. reflexivity. Qed.

(* The string 'coarsest' and negative levels name the level counted from the
   smallest; levels the file does not have are refused. *)
Theorem C146_levels count : 0 <= count ->
  resolve_overview count (OStr "coarsest") = Ok count /\
  (forall k, 1 <= k <= count -> resolve_overview count (OInt (- k)) = Ok (count - k)) /\
  (forall k, count < k -> resolve_overview count (OInt (- k)) = Ok 0) /\
  (forall k, 0 <= k <= count -> resolve_overview count (OInt k) = Ok k) /\
  (forall k, count < k -> resolve_overview count (OInt k) = Err ValueError).
Proof.
  intros Hc. unfold resolve_overview. cbn [String.eqb Ascii.eqb Bool.eqb]. repeat split.
  - destruct (Z.ltb_spec count 0); [lia|]. destruct (Z.ltb_spec count count); [lia|]. destruct (Z.ltb_spec 0 count); f_equal; lia.
  - intros k Hk. destruct (Z.eqb_spec (- k) 0); [lia|]. destruct (Z.ltb_spec (- k) 0); [|lia].
    rewrite Z.max_l by lia. destruct (Z.ltb_spec count (count + - k)); [lia|]. destruct (Z.ltb_spec 0 (count + - k)); f_equal; lia.
  - intros k Hk. destruct (Z.eqb_spec (- k) 0); [lia|]. destruct (Z.ltb_spec (- k) 0); [|lia].
    rewrite Z.max_r by lia. destruct (Z.ltb_spec count 0); [lia|]. reflexivity.
  - intros k Hk. destruct (Z.eqb_spec k 0) as [->|]; [reflexivity|]. destruct (Z.ltb_spec k 0); [lia|]. destruct (Z.ltb_spec count k); [lia|].
    destruct (Z.ltb_spec 0 k); [reflexivity|lia].
  - intros k Hk. destruct (Z.eqb_spec k 0); [lia|]. destruct (Z.ltb_spec k 0); [lia|]. destruct (Z.ltb_spec count k); [reflexivity|lia].
Qed.
Print Assumptions C146_levels.
Example C146_levels_case : resolve_overview 3 (OInt (-1)) = Ok 2 /\ resolve_overview 3 (OStr "coarsest") = Ok 3 /\ resolve_overview 3 (OInt 4) = Err ValueError.
Proof. repeat split. Qed.

(** * C147: palettes *)

(* Indexing a file never looks at its palettes: two files that differ in nothing else
   give the same, after the same calls. *)
Theorem C147_ignored {V} (veq : V -> V -> bool) (promote : V -> V) index_of fate fast (p q : pfile V) o method index n :
  p_file p = p_file q -> p_sub p = p_sub q -> p_interleaved p = p_interleaved q ->
  getitem_io veq promote index_of fate fast (kwimage_read veq promote index_of fate p o) p o method index n
  = getitem_io veq promote index_of fate fast (kwimage_read veq promote index_of fate q o) q o method index n.
Proof. destruct p, q. cbn. intros -> -> ->. reflexivity. Qed.
Print Assumptions C147_ignored.
Example C147_ignored_case : forall t, fst (getitem_io Z.eqb (fun v => v) Some (fun _ => Works) false
    (kwimage_read Z.eqb (fun v => v) Some (fun _ => Works) (mkP ex_gfile false false t) 0) (mkP ex_gfile false false t) 0 None [full; IInt 2; IInt 0] 0%nat)
  = Ok (mkR true 2 1 1 [[[SVal 2]]; [[SVal 12]]]).
Proof. intros t. vm_compute. reflexivity. Qed.

(* Read with its palette, a band gives for each pixel the entry its index names; all
   samples of a pixel whose index is the nodata value are nodata; the reported number
   of bands is that of the entries. *)
Theorem C147_colors_partial {V} (veq : V -> V -> bool) (promote : V -> V) index_of fate (p : pfile V) o b y0 x0 ny nx m t k (entry : Z -> Z -> list V) n :
  let f := p_file p in
  p_sub p = false -> 0 <= o <= g_count f -> 0 <= b < g_c f -> In m methods -> p_table p o b = Some t ->
  0 <= y0 -> 0 < ny -> y0 + ny <= g_h f o -> 0 <= x0 -> 0 < nx -> x0 + nx <= g_w f o ->
  1 <= t_interp t <= 11 -> t_colors t <> [] -> Forall (fun c => Z.of_nat (List.length c) = k) (t_colors t) ->
  (forall y x, y0 <= y < y0 + ny -> x0 <= x < x0 + nx ->
     exists i, index_of (g_pix f o y x b) = Some (Z.of_nat i) /\ nth_error (t_colors t) i = Some (entry y x)) ->
  fate n = Works ->
  vendored veq promote index_of fate p (OInt o) None false (Some [b]) (Some (y0, x0, ny, nx)) (rename m) None None n
  = (Ok (mkR false ny nx k
       (map (fun y => map (fun x => map (tinted promote m (is_nodata veq (g_nodata f o b) (g_pix f o y x b))) (entry y x)) (span x0 nx)) (span y0 ny)), k), S n).
Proof.
  intros f Hs Ho Hb Hm Ht Hy0 Hny Hy1 Hx0 Hnx Hx1 Hint Hne Hlen Hidx Hn. subst f. unfold vendored. rewrite Hs.
  rewrite resolve_bands_ok by (assumption || discriminate || (repeat constructor; apply Hb)). unfold andthen at 1, pure at 1. cbn [map fst snd].
  rewrite Ht. unfold paletted. unfold andthen at 1.
  rewrite read_band_works by (assumption || (unfold fits; repeat split; assumption)).
  replace ((1 <=? t_interp t) && (t_interp t <=? 11)) with true by lia. cbn [negb].
  destruct (rev (t_colors t)) as [|last r] eqn:Er.
  { apply (f_equal (@rev (list V))) in Er. rewrite rev_involutive in Er. now subst. }
  assert (Hlast : Z.of_nat (List.length last) = k).
  { rewrite Forall_forall in Hlen. apply Hlen. apply in_rev. rewrite Er. now left. }
  cbn [frame].
  rewrite (mapR_eq_map _ (fun y => map (fun x => map (fun v => (v, bit veq (g_nodata (p_file p) o b) (g_pix (p_file p) o y x b))) (entry y x)) (span x0 nx))).
  2:{ intros y Hy. apply mapR_eq_map. intros x Hx. apply span_In in Hy, Hx. destruct (Hidx y x ltac:(lia) ltac:(lia)) as (i & -> & Hi).
      unfold py_get. replace (Z.of_nat i <? 0) with false by lia. cbv zeta. replace (Z.of_nat i <? 0) with false by lia. rewrite Nat2Z.id, Hi. reflexivity. }
  unfold andthen, pure. rewrite (finish_tinted promote m) by exact Hm. unfold ret. rewrite Hlast. do 4 f_equal.
  rewrite map_map. apply map_ext. intros y. rewrite map_map. apply map_ext. intros x. rewrite map_map. apply map_ext. intros v. cbn [fst snd].
  reflexivity.
Qed.
Print Assumptions C147_colors_partial.
Example C147_colors_case :
  vendored Z.eqb (fun v => v) Some (fun _ => Works) ex_pfile (OInt 0) None false (Some [0]) (Some (0, 0, 2, 2)) (Some "ma"%string) None None 0%nat
  = (Ok (mkR false 2 2 4
       [[[SVal 0; SVal 100; SVal 200; SVal 255]; [SMask 1; SMask 101; SMask 201; SMask 255]];
        [[SVal 10; SVal 110; SVal 210; SVal 255]; [SVal 11; SVal 111; SVal 211; SVal 255]]], 4), 1%nat).
Proof. vm_compute. reflexivity. Qed.

(* A grey palette is refused, whatever the file holds: its interpretation is looked up
   as a data type. *)
Theorem C147_grey {V} (veq : V -> V -> bool) (promote : V -> V) index_of fate (p : pfile V) o b w m t n :
  p_sub p = false -> 0 <= o <= g_count (p_file p) -> 0 <= b < g_c (p_file p) -> p_table p o b = Some t -> t_interp t = 0 -> fate n <> Raises ->
  vendored veq promote index_of fate p (OInt o) None false (Some [b]) w m None None n = (Err KeyError, S n).
Proof.
  intros Hs Ho Hb Ht Hi Hn. unfold vendored. rewrite Hs. rewrite resolve_bands_ok by (assumption || discriminate || (repeat constructor; apply Hb)).
  unfold andthen at 1, pure at 1. cbn [map fst snd]. rewrite Ht. unfold paletted, andthen, read_band.
  destruct (frame (p_file p) (fst (o, b)) w) as [[[y0 x0] ny] nx]. rewrite Hi. destruct (fate n); [reflexivity|reflexivity|congruence].
Qed.
Print Assumptions C147_grey.
Example C147_grey_case : vendored Z.eqb (fun v => v) Some (fun _ => Works) (mkP ex_gfile false false (fun _ _ => Some (mkPal 0 [[0]; [1]])))
  (OInt 0) None false (Some [0]) None None None None 0%nat = (Err KeyError, 1%nat).
Proof. vm_compute. reflexivity. Qed.

(* The full statement, that a read with a palette gives the entries of its pixels or
   raises, is false: when the read fails the palette itself is returned as an image. *)
Theorem C147_colors_refuted : ~ forall fate (p : pfile Z) b ny nx r c n n',
  p_sub p = false -> 0 <= b < g_c (p_file p) -> 0 < ny <= g_h (p_file p) 0 -> 0 < nx <= g_w (p_file p) 0 ->
  vendored Z.eqb (fun v => v) Some fate p (OInt 0) None false (Some [b]) (Some (0, 0, ny, nx)) None None None n = (Ok (r, c), n') ->
  r_h r = ny /\ r_w r = nx.
Proof.
  intros H. destruct (H (fun _ => GivesNone) ex_pfile 0 2 3 (mkR false 1 13 4 [map (map SVal) (t_colors ex_palette)]) 4 0%nat 1%nat) as [E _];
    try reflexivity; try (vm_compute; intuition congruence). discriminate E.
Qed.
Print Assumptions C147_colors_refuted.

(** C149: the default arguments of the reader. *)

Lemma planes_whole {V} fate (f : gfile V) o bands :
  forall n, read_planes fate f (map (fun b => (o, b)) bands) None n =
            read_planes fate f (map (fun b => (o, b)) bands) (Some (0, 0, g_h f o, g_w f o)) n.
Proof.
  induction bands as [|b bands IH]; intros n; [reflexivity|]. cbn [map read_planes]. unfold andthen.
  change (read_band fate f (o, b) None) with (read_band fate f (o, b) (Some (0, 0, g_h f o, g_w f o))).
  destruct (read_band _ _ _ _ n) as [[[q|]|e] n']; [|reflexivity..]. now rewrite IH.
Qed.

(* No window is the window of the whole raster at the level that is read, no band
   list is the list of all bands, and the method may be given by its old name (which
   wins over the new one); for every file, palette and schedule of failures. *)
Theorem C149_defaults {V} (veq : V -> V -> bool) (promote : V -> V) index_of fate (p : pfile V) o ignore bands w m old n :
  let f := p_file p in
  0 <= o <= g_count f ->
  vendored veq promote index_of fate p (OInt o) None ignore bands None m None None n
  = vendored veq promote index_of fate p (OInt o) None ignore bands (Some (0, 0, g_h f o, g_w f o)) m None None n /\
  vendored veq promote index_of fate p (OInt o) None ignore None w m None None n
  = vendored veq promote index_of fate p (OInt o) None ignore (Some (zseq (Z.to_nat (g_c f)))) w m None None n /\
  vendored veq promote index_of fate p (OInt o) (Some old) ignore bands w m None None n
  = vendored veq promote index_of fate p (OInt o) None ignore bands w (Some old) None None n.
Proof.
  intros f Ho. split; [|split; reflexivity]. unfold vendored. destruct (p_sub p); [reflexivity|]. fold f.
  unfold andthen, pure. unfold resolve_bands. rewrite (resolve_overview_level _ _ Ho).
  set (ids := match bands with None => _ | Some l => l end). destruct ids as [|b ids]; [reflexivity|].
  destruct (forallb _ _); [|reflexivity]. cbn [bind map fst snd]. destruct ids as [|b' ids].
  - cbn [map]. destruct (if ignore then None else p_table p o b); reflexivity.
  - cbn [map]. unfold several. cbn [frame fst]. unfold andthen.
    change ((o, b) :: (o, b') :: map (fun b0 => (o, b0)) ids) with (map (fun b0 => (o, b0)) (b :: b' :: ids)).
    now rewrite planes_whole.
Qed.
Print Assumptions C149_defaults.

(* With the defaults the reader gives the whole raster at the level, all bands in
   order, and reports their number; unless one of its own calls fails. *)
Theorem C149_whole {V} (veq : V -> V -> bool) (promote : V -> V) index_of fate (p : pfile V) o m :
  let f := p_file p in
  p_sub p = false -> 0 <= o <= g_count f -> 0 < g_h f o -> 0 < g_w f o -> 0 < g_c f -> In m methods -> m <> Some "auto"%string ->
  reliable fate (vendored veq promote index_of fate p (OInt o) None true None None m None None)
    (right_array veq promote f o m (zseq (Z.to_nat (g_h f o))) (zseq (Z.to_nat (g_w f o))) (zseq (Z.to_nat (g_c f))), g_c f).
Proof.
  intros f Hs Ho Hh Hw Hc Hm Na n.
  assert (Er : rename m = m) by (destruct Hm as [<-|[<-|[<-|[<-|[<-|[]]]]]]; (reflexivity || congruence)).
  destruct (C149_defaults veq promote index_of fate p o true None None m ""%string n Ho) as (E & _ & _). rewrite E.
  destruct (C149_defaults veq promote index_of fate p o true None (Some (0, 0, g_h f o, g_w f o)) m ""%string n Ho) as (_ & E' & _).
  fold f. rewrite E'. fold f. set (bs := zseq (Z.to_nat (g_c f))).
  assert (Hb : Forall (fun b => 0 <= b < g_c f) bs).
  { apply Forall_forall. intros b Hb. apply zseq_In in Hb. lia. }
  assert (Lb : Z.of_nat (List.length bs) = g_c f) by (unfold bs; rewrite zseq_length; lia).
  assert (Hne : bs <> []) by (intros E0; rewrite E0 in Lb; cbn in Lb; lia).
  rewrite (vendored_eq veq promote index_of fate p (OInt o) m (Some bs) _ None None (map (fun b => (o, b)) bs)) by (assumption || now apply resolve_bands_ok).
  destruct (core_reliable veq promote fate f o m 0 0 (g_h f o) (g_w f o) bs) with (hs := map (fun b => (o, b)) bs) (nds := map (fun h => g_nodata f (fst h) (snd h)) (map (fun b => (o, b)) bs)) (n := n)
    as (n' & L & H); try assumption; try reflexivity.
  - unfold fits. lia.
  - intros _. now rewrite map_map.
  - now rewrite !map_length.
  - exists n'. split; [exact L|].
    assert (Ew : (window_array veq promote f o m 0 0 (g_h f o) (g_w f o) bs, Z.of_nat (List.length bs)) =
      (right_array veq promote f o m (zseq (Z.to_nat (g_h f o))) (zseq (Z.to_nat (g_w f o))) bs, g_c f)).
    { rewrite Lb. f_equal. unfold window_array, right_array. rewrite !zseq_length, !Z2Nat.id by lia.
      assert (Es : forall k, span 0 k = zseq (Z.to_nat k)) by (intros k; unfold span; now rewrite map_id). rewrite !Es. reflexivity. }
    rewrite <- Ew. rewrite Er in H. exact H.
Qed.
Print Assumptions C149_whole.
Example C149_case :
  vendored Z.eqb (fun v => v) Some (fun _ => Works) ex_pfile (OInt 1) (Some "ma"%string) true None None None None None 0%nat
  = (Ok (mkR false 1 2 2 [[[SVal 100; SVal 130]; [SVal 101; SVal 131]]], 2), 2%nat) /\
  (exists m, In m methods /\ m = Some "ma"%string).
Proof. split; [vm_compute; reflexivity|]. exists (Some "ma"%string). cbn. tauto. Qed.

(* Bands the file does not have, numbers counted from the end among them, are
   refused, and so is an empty list. *)
Theorem C149_refused {V} (veq : V -> V -> bool) (promote : V -> V) index_of fate (p : pfile V) o old ignore bands w m n :
  bands = [] \/ Exists (fun b => b < 0 \/ g_c (p_file p) <= b) bands ->
  exists e, fst (vendored veq promote index_of fate p o old ignore (Some bands) w m None None n) = Err e.
Proof.
  intros H. unfold vendored, andthen, pure. destruct (p_sub p); [eexists; reflexivity|].
  assert (E : exists e, resolve_bands (p_file p) o (Some bands) = Err e).
  { unfold resolve_bands. destruct bands as [|b bands0] eqn:Eb; [eexists; reflexivity|]. rewrite <- Eb in *.
    destruct (forallb _ bands) eqn:Ef; [|eexists; reflexivity]. exfalso. destruct H as [->|H]; [discriminate|].
    rewrite forallb_forall in Ef. apply Exists_exists in H as (x & Hx & Hr). apply Ef in Hx. lia. }
  destruct E as (e & ->). eexists. reflexivity.
Qed.
Print Assumptions C149_refused.
Example C149_refused_case : Exists (fun b => b < 0 \/ g_c (p_file ex_pfile) <= b) [0; -1].
Proof. apply Exists_cons_tl, Exists_cons_hd. left. lia. Qed.
