(* Proofs about reads that may fail. *)
From Verif Require Import Py PyProofs LazyModel LazySpec LazyProofs ReadModel ReadSpec.
From Coq Require Import ZifyBool.
Local Open Scope Z_scope.

Section Reliable.
Context (fate : nat -> outcome).

Lemma reliable_ret {A} (a : A) : reliable fate (ret a) a.
Proof. intros n. exists n. split; [lia|]. now left. Qed.
Lemma reliable_pure {A} (r : result A) a : r = Ok a -> reliable fate (pure r) a.
Proof. intros -> n. exists n. split; [lia|]. now left. Qed.
Lemma reliable_andthen {A B} (m : M A) (k : A -> M B) a b : reliable fate m a -> reliable fate (k a) b -> reliable fate (andthen m k) b.
Proof.
  intros Hm Hk n. destruct (Hm n) as (n1 & L1 & [E1 | (e & E1 & j & Hj & Bj)]); unfold andthen; rewrite E1.
  - destruct (Hk n1) as (n2 & L2 & [E2 | (e & E2 & j & Hj & Bj)]); exists n2; (split; [lia|]); rewrite E2; [now left|].
    right. exists e. split; [reflexivity|]. exists j. split; [lia|exact Bj].
  - exists n1. split; [lia|]. right. exists e. split; [reflexivity|]. now exists j.
Qed.
End Reliable.

Section Reads.
Context {V : Type} (veq : V -> V -> bool) (promote : V -> V) (index_of : V -> option Z) (fate : nat -> outcome).

Lemma finish_shown m (nd : Z -> option V) (pix : Z -> Z -> Z -> V) ys xs bands : In m methods ->
  finish promote (rename m) (map (fun y => map (fun x => map (fun b => (pix y x b, bit veq (nd b) (pix y x b))) bands) xs) ys)
  = Ok (map (fun y => map (fun x => map (fun b => shown veq promote m (nd b) (pix y x b)) bands) xs) ys).
Proof.
  intros [<-|[<-|[<-|[<-|[<-|[]]]]]]; unfold finish, rename, mark_bit; cbn; f_equal;
    rewrite map_map; apply map_ext; intros y; rewrite map_map; apply map_ext; intros x; rewrite map_map; apply map_ext; intros b; reflexivity.
Qed.

Lemma finish_tinted m im : In m methods ->
  finish promote (rename m) im = Ok (map (map (map (fun p : V * bool => tinted promote m (snd p) (fst p)))) im).
Proof. intros [<-|[<-|[<-|[<-|[<-|[]]]]]]; reflexivity. Qed.

(* a window of the level lies inside the raster *)
Definition fits (f : gfile V) (lvl : Z) (y0 x0 ny nx : Z) : Prop :=
  0 <= y0 /\ 0 < ny /\ y0 + ny <= g_h f lvl /\ 0 <= x0 /\ 0 < nx /\ x0 + nx <= g_w f lvl.

Lemma read_band_works f lvl b y0 x0 ny nx n : fits f lvl y0 x0 ny nx -> 0 <= b < g_c f -> fate n = Works ->
  read_band fate f (lvl, b) (Some (y0, x0, ny, nx)) n = (Ok (Some (fun y x => g_pix f lvl y x b)), S n).
Proof.
  intros (? & ? & ? & ? & ? & ?) Hb Hn. unfold read_band. cbn [frame fst snd]. rewrite Hn. unfold in_window.
  replace (_ && _ && _) with true by (symmetry; rewrite !andb_true_iff; repeat split; lia). reflexivity.
Qed.

Lemma read_twice_reliable f lvl b y0 x0 ny nx : fits f lvl y0 x0 ny nx -> 0 <= b < g_c f ->
  reliable fate (read_twice fate f (lvl, b) (Some (y0, x0, ny, nx))) (fun y x => g_pix f lvl y x b).
Proof.
  intros Hf Hb n. unfold read_twice, andthen. destruct (fate n) eqn:E.
  - rewrite read_band_works by assumption. exists (S n). split; [lia|]. now left.
  - assert (H1 : read_band fate f (lvl, b) (Some (y0, x0, ny, nx)) n = (Ok None, S n)) by (unfold read_band; cbn [frame fst snd]; now rewrite E).
    rewrite H1. destruct (fate (S n)) eqn:E2.
    + rewrite read_band_works by assumption. exists (S (S n)). split; [lia|]. now left.
    + unfold read_band. cbn [frame fst snd]. rewrite E2. exists (S (S n)). split; [lia|]. right. eexists. split; [reflexivity|].
      exists (S n). split; [lia|congruence].
    + unfold read_band. cbn [frame fst snd]. rewrite E2. exists (S (S n)). split; [lia|]. right. eexists. split; [reflexivity|].
      exists (S n). split; [lia|congruence].
  - unfold read_band. cbn [frame fst snd]. rewrite E. exists (S n). split; [lia|]. right. eexists. split; [reflexivity|].
    exists n. split; [lia|congruence].
Qed.

Lemma read_step_reliable {A} f lvl b y0 x0 ny nx e (k : (Z -> Z -> V) -> M A) a : fits f lvl y0 x0 ny nx -> 0 <= b < g_c f ->
  reliable fate (k (fun y x => g_pix f lvl y x b)) a ->
  reliable fate (andthen (read_band fate f (lvl, b) (Some (y0, x0, ny, nx))) (fun o => match o with None => raise e | Some p => k p end)) a.
Proof.
  intros Hf Hb Hk n. unfold andthen. destruct (fate n) eqn:E.
  - rewrite read_band_works by assumption. destruct (Hk (S n)) as (n2 & L2 & H2). exists n2. split; [lia|].
    destruct H2 as [H2 | (e' & H2 & j & Hj & Bj)]; rewrite H2; [now left|]. right. exists e'. split; [reflexivity|]. exists j. split; [lia|exact Bj].
  - unfold read_band. cbn [frame fst snd]. rewrite E. exists (S n). split; [lia|]. right. eexists. split; [reflexivity|].
    exists n. split; [lia|congruence].
  - unfold read_band. cbn [frame fst snd]. rewrite E. exists (S n). split; [lia|]. right. eexists. split; [reflexivity|].
    exists n. split; [lia|congruence].
Qed.

Lemma read_planes_reliable f lvl y0 x0 ny nx bands : fits f lvl y0 x0 ny nx -> Forall (fun b => 0 <= b < g_c f) bands ->
  reliable fate (read_planes fate f (map (fun b => (lvl, b)) bands) (Some (y0, x0, ny, nx))) (map (fun b y x => g_pix f lvl y x b) bands).
Proof.
  intros Hf Hb. induction Hb as [|b bands Hb _ IH]; [apply reliable_ret|]. cbn [map read_planes].
  apply read_step_reliable; [assumption..|]. eapply reliable_andthen; [exact IH|]. apply reliable_ret.
Qed.

(* the array of the window for some bands *)
Definition window_array f lvl m y0 x0 ny nx bands : rarr V :=
  mkR (Z.of_nat (List.length bands) =? 1) ny nx (Z.of_nat (List.length bands))
    (map (fun y => map (fun x => map (fun b => shown veq promote m (g_nodata f lvl b) (g_pix f lvl y x b)) bands) (span x0 nx)) (span y0 ny)).

Lemma combine_map2 {A B C} (g : A -> B) (h : A -> C) l : combine (map g l) (map h l) = map (fun a => (g a, h a)) l.
Proof. induction l; cbn; congruence. Qed.

Lemma core_reliable f lvl m y0 x0 ny nx bands : fits f lvl y0 x0 ny nx -> Forall (fun b => 0 <= b < g_c f) bands -> bands <> [] -> In m methods ->
  forall hs nds, hs = map (fun b => (lvl, b)) bands -> (m <> None -> nds = map (g_nodata f lvl) bands) -> List.length nds = List.length bands ->
  reliable fate
    (match hs with
     | [h] => single veq promote fate f h (Some (y0, x0, ny, nx)) (rename m) (match nds with nd :: _ => nd | [] => None end)
     | _ => several veq promote fate f hs (Some (y0, x0, ny, nx)) (rename m) nds
     end) (window_array f lvl m y0 x0 ny nx bands, Z.of_nat (List.length bands)).
Proof.
  intros Hf Hb Hne Hm hs nds -> Hnd Hlen.
  assert (Hfin : forall ps, ps = map (fun b y x => g_pix f lvl y x b) bands ->
    finish promote (rename m) (map (fun y => map (fun x => map (fun pn : (Z -> Z -> V) * option V => (fst pn y x, bit veq (snd pn) (fst pn y x))) (combine ps nds)) (span x0 nx)) (span y0 ny))
    = Ok (map (fun y => map (fun x => map (fun b => shown veq promote m (g_nodata f lvl b) (g_pix f lvl y x b)) bands) (span x0 nx)) (span y0 ny))).
  { intros ps ->. destruct m as [m0|].
    - rewrite (Hnd ltac:(discriminate)). rewrite combine_map2.
      rewrite <- (finish_shown (Some m0) (g_nodata f lvl) (g_pix f lvl) (span y0 ny) (span x0 nx) bands Hm).
      f_equal. apply map_ext; intros y. apply map_ext; intros x. now rewrite map_map.
    - cbn [rename finish]. f_equal. rewrite map_map. apply map_ext; intros y. rewrite map_map. apply map_ext; intros x. rewrite map_map. cbn [fst].
      clear Hnd Hb Hne. revert nds Hlen. induction bands as [|b bands IH]; intros [|nd nds]; try discriminate; [reflexivity|].
      intros H. cbn. f_equal. apply IH. now injection H. }
  destruct bands as [|b [|b' bands]]; [congruence| |].
  - cbn [map]. unfold single. inversion Hb; subst. destruct nds as [|nd [|]]; try discriminate.
    eapply reliable_andthen; [apply read_twice_reliable; assumption|]. cbn [frame]. eapply reliable_andthen; [apply reliable_pure|apply reliable_ret].
    exact (Hfin _ eq_refl).
  - cbn [map]. unfold several. cbn [frame]. eapply reliable_andthen; [apply (read_planes_reliable f lvl y0 x0 ny nx (b :: b' :: bands)); assumption|].
    eapply reliable_andthen; [apply reliable_pure; exact (Hfin _ eq_refl)|]. cbn [List.length]. rewrite map_length.
    unfold window_array. replace (Z.of_nat _ =? 1) with false by (symmetry; apply Z.eqb_neq; cbn [List.length]; lia). apply reliable_ret.
Qed.

Lemma resolve_overview_level count o : 0 <= o <= count -> resolve_overview count (OInt o) = Ok o.
Proof.
  intros H. unfold resolve_overview. destruct (Z.eqb_spec o 0) as [->|]; [reflexivity|].
  destruct (Z.ltb_spec o 0); [lia|]. destruct (Z.ltb_spec count o); [lia|]. destruct (Z.ltb_spec 0 o); [reflexivity|lia].
Qed.

Lemma resolve_bands_ok (f : gfile V) o bands : 0 <= o <= g_count f -> bands <> [] -> Forall (fun b => 0 <= b < g_c f) bands ->
  resolve_bands f (OInt o) (Some bands) = Ok (map (fun b => (o, b)) bands).
Proof.
  intros Ho Hne Hb. unfold resolve_bands. destruct bands as [|b bands0] eqn:E; [congruence|]. rewrite <- E in *.
  replace (forallb _ bands) with true; [now rewrite resolve_overview_level|].
  symmetry. apply forallb_forall. intros x Hx. rewrite Forall_forall in Hb. apply Hb in Hx. lia.
Qed.

Lemma vendored_eq (p : pfile V) o m bands w pre pre_nd hs :
  p_sub p = false -> match pre with Some hs => Ok hs | None => resolve_bands (p_file p) o bands end = Ok hs ->
  vendored veq promote index_of fate p o None true bands w m pre pre_nd =
  fun n => (let nds := match pre_nd with Some l => l | None => map (fun h => g_nodata (p_file p) (fst h) (snd h)) hs end in
   match hs with
   | [h] => single veq promote fate (p_file p) h w m (match nds with nd :: _ => nd | [] => None end)
   | _ => several veq promote fate (p_file p) hs w m nds
   end) n.
Proof. intros Hs H. unfold vendored. rewrite Hs, H. unfold andthen, pure. destruct hs as [|h [|]]; reflexivity. Qed.

Lemma kwimage_reliable (p : pfile V) o m y0 x0 ny nx bands : p_sub p = false -> 0 <= o <= g_count (p_file p) ->
  fits (p_file p) o y0 x0 ny nx -> Forall (fun b => 0 <= b < g_c (p_file p)) bands -> bands <> [] -> In m methods ->
  reliable fate (kwimage_read veq promote index_of fate p o bands (Some (y0, x0, ny, nx)) (rename m)) (window_array (p_file p) o m y0 x0 ny nx bands).
Proof.
  intros Hs Ho Hf Hb Hne Hm. unfold kwimage_read.
  apply reliable_andthen with (a := (window_array (p_file p) o m y0 x0 ny nx bands, Z.of_nat (List.length bands))); [|apply reliable_ret].
  intros n. rewrite (vendored_eq p (OInt o) (rename m) (Some bands) _ None None (map (fun b => (o, b)) bands)) by (assumption || now apply resolve_bands_ok).
  apply core_reliable; try assumption; [reflexivity| |now rewrite !map_length]. intros _. cbn zeta. now rewrite map_map.
Qed.

Lemma compat_reliable upstream (p : pfile V) o method y0 x0 ny nx bands :
  let s := mkL (p_file p) o method in
  p_sub p = false -> 0 <= o <= g_count (p_file p) -> 0 <= g_c (p_file p) ->
  fits (p_file p) o y0 x0 ny nx -> Forall (fun b => 0 <= b < g_c (p_file p)) bands -> bands <> [] -> In method methods ->
  exists body, reliable fate body (window_array (p_file p) o method y0 x0 ny nx bands) /\
    forall n, compat_io veq promote index_of fate upstream p s bands (Some (y0, x0, ny, nx)) (rename method) n =
      try_except body (upstream bands (Some (y0, x0, ny, nx)) (rename method)) n.
Proof.
  intros s Hs Ho HC Hf Hb Hne Hm. eexists. split; cycle 1.
  - intros n. unfold compat_io. unfold andthen at 1, pure at 1. rewrite (read_bands_ok s Ho). cbn [l_file s l_overview].
    unfold andthen at 1, pure at 1. rewrite mapR_eq_map with (g := fun b => b); [|].
    + rewrite map_id. reflexivity.
    + intros b Hbi. rewrite Forall_forall in Hb. apply Hb in Hbi. rewrite py_get_zseq by (cbn [l_file]; rewrite ?Z2Nat.id by exact HC; lia).
      destruct (Z.ltb_spec b 0); [lia|reflexivity].
  - apply reliable_andthen with (a := (window_array (p_file p) o method y0 x0 ny nx bands, Z.of_nat (List.length bands))); [|apply reliable_ret]. intros n.
    erewrite vendored_eq; [|exact Hs|reflexivity]. cbn zeta.
    apply core_reliable; try assumption; [reflexivity| |].
    + intros Hm0. destruct method; [reflexivity|congruence].
    + destruct (rename method); now rewrite !map_length.
Qed.

Lemma fast_reliable (p : pfile V) o method y0 x0 ny nx bands :
  let s := mkL (p_file p) o method in
  0 <= o <= g_count (p_file p) -> (0 < o -> g_ds (p_file p) o = true) ->
  fits (p_file p) o y0 x0 ny nx -> Forall (fun b => 0 <= b < g_c (p_file p)) bands -> bands <> [] -> In method methods ->
  reliable fate (fast_io veq promote fate s bands y0 x0 ny nx (rename method)) (window_array (p_file p) o method y0 x0 ny nx bands).
Proof.
  intros s Ho Hds Hf Hb Hne Hm. assert (HD := read_ds_ok s Ho Hds). unfold fast_io. destruct bands as [|b0 bands0] eqn:Eb; [congruence|]. rewrite <- Eb in *.
  eapply reliable_andthen; [apply reliable_pure; exact HD|]. intros n. exists (S n). split; [lia|]. destruct (fate n) eqn:E.
  - left. destruct Hf as (? & ? & ? & ? & ? & ?).
    assert (HF := fast_ok veq promote s bands y0 x0 ny nx method o HD Hm Hne ltac:(assumption) ltac:(assumption) ltac:(assumption) ltac:(assumption) ltac:(assumption) ltac:(assumption)).
    cbv zeta in HF. destruct (fast_read veq promote s bands y0 x0 ny nx (rename method)) as [r|e]; [|contradiction].
    rewrite HF. f_equal. f_equal. cbn [l_file s]. unfold window_array.
    replace (map (wrap (g_c (p_file p))) bands) with bands; [reflexivity|].
    symmetry. rewrite <- (map_id bands) at 2. apply map_ext_in. intros b Hbi. rewrite Forall_forall in Hb. apply Hb in Hbi. unfold wrap. destruct (Z.ltb_spec b 0); [lia|reflexivity].
  - right. eexists. split; [reflexivity|]. exists n. split; [lia|congruence].
  - right. eexists. split; [reflexivity|]. exists n. split; [lia|congruence].
Qed.

Lemma try_two {A} (m k : M A) a n : at_most fate 1 -> reliable fate m a -> reliable fate k a -> exists n', try_except m k n = (Ok a, n').
Proof.
  intros H Hm Hk. unfold try_except. destruct (Hm n) as (n1 & L1 & [E1 | (e & E1 & j & Hj & Bj)]); rewrite E1; [now exists n1|].
  destruct (Hk n1) as (n2 & L2 & [E2 | (e2 & E2 & j2 & Hj2 & Bj2)]); [now exists n2|].
  assert (X : (List.length [j; j2] <= 1)%nat); [|cbn in X; lia]. apply H; [|now repeat constructor].
  constructor; [intros [X|[]]; lia|]. constructor; [intros []|constructor].
Qed.

Lemma try_three {A} (m1 m2 m3 : M A) a n : at_most fate 2 -> reliable fate m1 a -> reliable fate m2 a -> reliable fate m3 a ->
  exists n', try_except m1 (try_except m2 m3) n = (Ok a, n').
Proof.
  intros H H1 H2 H3. unfold try_except. destruct (H1 n) as (n1 & L1 & [E1 | (e & E1 & j & Hj & Bj)]); rewrite E1; [now exists n1|].
  destruct (H2 n1) as (n2 & L2 & [E2 | (e2 & E2 & j2 & Hj2 & Bj2)]); rewrite E2; [now exists n2|].
  destruct (H3 n2) as (n3 & L3 & [E3 | (e3 & E3 & j3 & Hj3 & Bj3)]); [now exists n3|].
  assert (X : (List.length [j; j2; j3] <= 2)%nat); [|cbn in X; lia]. apply H; [|now repeat constructor].
  constructor; [intros [X|[X|[]]]; lia|]. constructor; [intros [X|[]]; lia|]. constructor; [intros []|constructor].
Qed.

Lemma band_indices_nonneg i C p : 0 <= C -> counts_from_start i -> rectify i C = Ok p -> Forall (fun b => - C <= b < C) (band_indices p C) ->
  Forall (fun b => 0 <= b < C) (band_indices p C).
Proof.
  intros HC Hi E H. destruct p as [a b|l].
  - cbn [band_indices] in *. apply Forall_forall. intros z Hz. assert (Hz' := Hz). rewrite Forall_forall in H. apply H in Hz.
    apply span_In in Hz'. assert (R := slice_bound_range C a HC). lia.
  - destruct i; cbn in E; try discriminate; try (destruct step; discriminate). injection E as ->. cbn in *.
    rewrite Forall_forall in *. intros z Hz. specialize (H z Hz). specialize (Hi z Hz). cbn in *. lia.
Qed.

Lemma wrap_id C bands : Forall (fun b => 0 <= b < C) bands -> map (wrap C) bands = bands.
Proof. intros H. rewrite <- (map_id bands) at 2. apply map_ext_in. intros b Hb. rewrite Forall_forall in H. apply H in Hb. unfold wrap. destruct (Z.ltb_spec b 0); [lia|reflexivity]. Qed.

Lemma getitem_io_ok fast upstream (p : pfile V) o method index iy ix ic n :
  let f := p_file p in
  p_sub p = false -> 0 <= o <= g_count f -> (0 < o -> fast = true -> g_ds f o = true) ->
  0 <= g_h f o -> 0 <= g_w f o -> 0 <= g_c f -> In method methods -> means 1 index iy ix ic ->
  window_entry iy (g_h f o) -> window_entry ix (g_w f o) -> band_entry ic (g_c f) -> counts_from_start ic ->
  let ys := selects iy (g_h f o) in let xs := selects ix (g_w f o) in let bs := selects ic (g_c f) in
  ys <> [] -> xs <> [] -> bs <> [] ->
  at_most fate (if fast then 2 else 1)%nat ->
  (forall y0 x0 ny nx, ys = span y0 ny -> xs = span x0 nx -> 0 < ny -> 0 < nx -> fits f o y0 x0 ny nx -> Forall (fun b => 0 <= b < g_c f) bs ->
     reliable fate (upstream bs (Some (y0, x0, ny, nx)) (rename method)) (right_array veq promote f o method ys xs bs)) ->
  exists n', getitem_io veq promote index_of fate fast upstream p o method index n = (Ok (right_array veq promote f o method ys xs bs), n').
Proof.
  intros f Hs Ho Hds Hh Hw HC Hm Hmeans Hy Hx Hc Hfs ys xs bs Sy Sx Sb Hbad Hup.
  set (s := mkL f o method). unfold getitem_io. fold f. fold s.
  assert (El := shape_ok s Ho). cbn [s l_file l_overview] in El. fold s in El.
  unfold andthen at 1, pure at 1. rewrite El. rewrite Hs, andb_false_r.
  unfold andthen at 1, pure at 1. rewrite (expand_means _ _ _ _ Hmeans). unfold andthen at 1, pure at 1.
  destruct (rectify_bands ic (g_c f) HC Hc) as (p0 & Ep & Ep' & Fp).
  destruct (request_ok [iy; ix; ic] iy ix ic (g_h f o) (g_w f o) (g_c f) eq_refl Hh Hw HC Hy Hx Hc Sy Sx)
    as (bands & y0 & ny & x0 & nx & E & Eb & Fb & Ey & ? & ? & ? & Ex & ? & ? & ?).
  rewrite E. fold (rename method).
  assert (Ebi : bands = band_indices p0 (g_c f)).
  { rewrite request3 in E. apply bind_ok in E as (yp & _ & E). apply bind_ok in E as (xp & _ & E). rewrite Ep in E. cbn [bind] in E.
    apply bind_ok in E as (yb & _ & E). apply bind_ok in E as (xb & _ & E). injection E as E _ _ _ _. now symmetry. }
  assert (Fb' : Forall (fun b => 0 <= b < g_c f) bands) by (rewrite Ebi in *; now apply band_indices_nonneg with (i := ic)).
  assert (Ebs : bands = bs) by (unfold bs; rewrite <- Eb; symmetry; now apply wrap_id).
  clear Ebi Eb. subst bands.
  assert (Hfit : fits f o y0 x0 ny nx) by (unfold fits; repeat split; lia).
  assert (Ewa : window_array f o method y0 x0 ny nx bs = right_array veq promote f o method ys xs bs).
  { unfold window_array, right_array, ys, xs. rewrite Ey, Ex, !span_length, !Z2Nat.id by lia. reflexivity. }
  assert (HU := Hup y0 x0 ny nx Ey Ex ltac:(lia) ltac:(lia) Hfit Fb').
  destruct (compat_reliable upstream p o method y0 x0 ny nx bs Hs Ho HC Hfit Fb' Sb Hm) as (body & HB & EB). fold f s in EB. fold f in HB. rewrite Ewa in HB.
  destruct fast.
  - assert (HF := fast_reliable p o method y0 x0 ny nx bs Ho (fun H => Hds H eq_refl) Hfit Fb' Sb Hm). fold f in HF. rewrite Ewa in HF. fold s in HF.
    destruct (try_three _ _ _ _ n Hbad HF HB HU) as (n' & En). exists n'. rewrite <- En. unfold try_except at 1 2.
    destruct (fast_io veq promote fate s bs y0 x0 ny nx (rename method) n) as [[r|e] n1]; [reflexivity|]. apply EB.
  - rewrite EB. now apply try_two.
Qed.

(** ** Without failures the readers are those of LazyModel *)

Lemma finish_mark m (nd : Z -> option V) (pix : Z -> Z -> Z -> V) ys xs bands :
  finish promote m (map (fun y => map (fun x => map (fun b => (pix y x b, bit veq (nd b) (pix y x b))) bands) xs) ys)
  = mark_image veq promote m (map nd bands) (map (fun y => map (fun x => map (pix y x) bands) xs) ys).
Proof.
  unfold mark_image. destruct m as [m|]; cbn [finish known_method].
  - destruct (String.eqb m "ma" || String.eqb m "float" || String.eqb m "nan") eqn:Ek; [|reflexivity].
    symmetry. rewrite map_map, mapR_map. apply mapR_eq_map. intros y _. rewrite map_map, mapR_map. apply mapR_eq_map. intros x _. rewrite map_map.
    induction bands as [|b bands IH]; [reflexivity|]. cbn [map mark_pixel]. rewrite IH. unfold mark, mark_bit, bit. cbn [fst snd].
    destruct (String.eqb m "ma"); [reflexivity|]. cbn [orb] in Ek. rewrite Ek. reflexivity.
  - symmetry. rewrite map_map, mapR_map. apply mapR_eq_map. intros y _. rewrite map_map, mapR_map. apply mapR_eq_map. intros x _. rewrite map_map.
    induction bands as [|b bands IH]; [reflexivity|]. cbn [map mark_pixel mark]. rewrite IH. reflexivity.
Qed.

Definition inside (f : gfile V) lvl y0 x0 ny nx : bool := in_window (g_h f lvl) y0 ny && in_window (g_w f lvl) x0 nx.

Lemma read_band_all f lvl b y0 x0 ny nx n : (forall k, fate k = Works) -> 0 <= b < g_c f ->
  read_band fate f (lvl, b) (Some (y0, x0, ny, nx)) n =
  (Ok (if inside f lvl y0 x0 ny nx then Some (fun y x => g_pix f lvl y x b) else None), S n).
Proof.
  intros Hf Hb. unfold read_band. cbn [frame fst snd]. rewrite Hf. unfold inside.
  replace ((0 <=? b) && (b <? g_c f)) with true by lia. now rewrite andb_true_r.
Qed.

Lemma read_planes_all f lvl y0 x0 ny nx bands n : (forall k, fate k = Works) -> Forall (fun b => 0 <= b < g_c f) bands ->
  fst (read_planes fate f (map (fun b => (lvl, b)) bands) (Some (y0, x0, ny, nx)) n) =
  if inside f lvl y0 x0 ny nx then Ok (map (fun b y x => g_pix f lvl y x b) bands)
  else match bands with [] => Ok [] | _ => Err OtherError end.
Proof.
  intros Hf Hb. revert n. induction Hb as [|b bands Hb _ IH]; intros n; [now destruct (inside f lvl y0 x0 ny nx)|].
  cbn [map read_planes]. unfold andthen. rewrite read_band_all by assumption. destruct (inside f lvl y0 x0 ny nx); [|reflexivity].
  specialize (IH (S n)). destruct (read_planes fate f (map (fun b => (lvl, b)) bands) (Some (y0, x0, ny, nx)) (S n)) as [[ps|e] n']; cbn in IH; [|discriminate].
  injection IH as ->. reflexivity.
Qed.

Lemma gdal_window_inside f lvl y0 x0 ny nx bands : Forall (fun b => 0 <= b < g_c f) bands ->
  gdal_window f lvl y0 x0 ny nx bands =
  if inside f lvl y0 x0 ny nx then Some (map (fun y => map (fun x => map (g_pix f lvl y x) bands) (span x0 nx)) (span y0 ny)) else None.
Proof.
  intros Hb. unfold gdal_window, inside. replace (forallb _ bands) with true; [now rewrite andb_true_r|].
  symmetry. apply forallb_forall. intros b Hi. rewrite Forall_forall in Hb. apply Hb in Hi. lia.
Qed.

Lemma core_all f lvl m y0 x0 ny nx bands hs nds n : (forall k, fate k = Works) -> Forall (fun b => 0 <= b < g_c f) bands ->
  hs = map (fun b => (lvl, b)) bands -> (m <> None -> nds = map (g_nodata f lvl) bands) -> List.length nds = List.length bands ->
  rmap fst (fst ((match hs with
     | [h] => single veq promote fate f h (Some (y0, x0, ny, nx)) m (match nds with nd :: _ => nd | [] => None end)
     | _ => several veq promote fate f hs (Some (y0, x0, ny, nx)) m nds
     end) n)) =
  match bands with
  | [] => Err IndexError
  | _ => match gdal_window f lvl y0 x0 ny nx bands with
         | None => Err OtherError
         | Some im => data <- mark_image veq promote m (map (g_nodata f lvl) bands) im ;;
                      Ok (mkR (Z.of_nat (List.length bands) =? 1) ny nx (Z.of_nat (List.length bands)) data)
         end
  end.
Proof.
  intros Hf Hb -> Hnd Hlen. rewrite gdal_window_inside by assumption.
  assert (Hfin : forall ps, ps = map (fun b y x => g_pix f lvl y x b) bands ->
    finish promote m (map (fun y => map (fun x => map (fun pn : (Z -> Z -> V) * option V => (fst pn y x, bit veq (snd pn) (fst pn y x))) (combine ps nds)) (span x0 nx)) (span y0 ny))
    = mark_image veq promote m (map (g_nodata f lvl) bands) (map (fun y => map (fun x => map (g_pix f lvl y x) bands) (span x0 nx)) (span y0 ny))).
  { intros ps ->. rewrite <- finish_mark. destruct m as [m0|].
    - rewrite (Hnd ltac:(discriminate)), combine_map2. f_equal. apply map_ext; intros y. apply map_ext; intros x. now rewrite map_map.
    - cbn [finish]. f_equal. rewrite !map_map. apply map_ext; intros y. rewrite !map_map. apply map_ext; intros x. rewrite !map_map. cbn [fst].
      clear Hnd Hb. revert nds Hlen. induction bands as [|b bands IH]; intros [|nd nds]; try discriminate; [reflexivity|].
      intros H. cbn. f_equal. apply IH. now injection H. }
  destruct bands as [|b [|b' bands]]; [reflexivity| |].
  - cbn [map]. inversion Hb; subst. destruct nds as [|nd [|]]; try discriminate. unfold single, read_twice, andthen. rewrite read_band_all by assumption.
    destruct (inside f lvl y0 x0 ny nx) eqn:Ei; [|now rewrite read_band_all, Ei by assumption].
    unfold ret at 1, pure. cbn [frame]. specialize (Hfin _ eq_refl). cbn [map combine fst snd] in Hfin. rewrite Hfin.
    destruct (mark_image _ _ _ _ _); reflexivity.
  - set (bs := b :: b' :: bands) in *. assert (HP := fun n => read_planes_all f lvl y0 x0 ny nx bs n Hf Hb).
    specialize (Hfin _ eq_refl). change (rmap fst (fst (several veq promote fate f (map (fun b => (lvl, b)) bs) (Some (y0, x0, ny, nx)) m nds n)) =
      match (if inside f lvl y0 x0 ny nx then Some (map (fun y => map (fun x => map (g_pix f lvl y x) bs) (span x0 nx)) (span y0 ny)) else None) with
      | None => Err OtherError
      | Some im => data <- mark_image veq promote m (map (g_nodata f lvl) bs) im ;; Ok (mkR (Z.of_nat (List.length bs) =? 1) ny nx (Z.of_nat (List.length bs)) data) end).
    unfold several. change (map (fun b => (lvl, b)) bs) with ((lvl, b) :: map (fun b => (lvl, b)) (b' :: bands)) at 1. cbn [frame]. cbv beta iota.
    unfold andthen at 1. specialize (HP n).
    destruct (read_planes fate f (map (fun b => (lvl, b)) bs) (Some (y0, x0, ny, nx)) n) as [[ps|e] n'] eqn:Er; cbn [fst] in HP;
      destruct (inside f lvl y0 x0 ny nx); try discriminate; [|injection HP as ->; reflexivity].
    assert (EP : ps = map (fun b y x => g_pix f lvl y x b) bs) by (now injection HP). rewrite EP. unfold andthen, pure. rewrite Hfin. destruct (mark_image _ _ _ _ _); [|reflexivity].
    cbn [bind]. unfold ret. cbn [fst rmap]. rewrite map_length. now replace (Z.of_nat (List.length bs) =? 1) with false by (unfold bs; cbn [List.length]; lia).
Qed.

Lemma py_get_zseq_in C i b : 0 <= C -> py_get (zseq (Z.to_nat C)) i = Ok b -> 0 <= b < C.
Proof.
  intros HC. unfold py_get. rewrite zseq_length, Z2Nat.id by exact HC. set (j := if i <? 0 then i + C else i).
  destruct (j <? 0) eqn:E; [discriminate|]. destruct (nth_error (zseq (Z.to_nat C)) (Z.to_nat j)) eqn:En; [|discriminate]. intros H. injection H as <-.
  apply nth_error_In in En. apply zseq_In in En. lia.
Qed.

Lemma compat_all up (p : pfile V) o method bands y0 x0 ny nx m n : (forall k, fate k = Works) -> p_sub p = false -> 0 <= g_c (p_file p) ->
  fst (compat_io veq promote index_of fate (fun _ _ _ => pure up) p (mkL (p_file p) o method) bands (Some (y0, x0, ny, nx)) m n)
  = compat_read veq promote up (mkL (p_file p) o method) bands y0 x0 ny nx m.
Proof.
  intros Hf Hs HC. unfold compat_io, compat_read. unfold andthen at 1, pure at 1. destruct (read_bands _) as [lvl|e]; [|reflexivity]. cbn [bind l_file].
  unfold andthen at 1, pure at 1. destruct (mapR (py_get (zseq (Z.to_nat (g_c (p_file p))))) bands) as [sel|e] eqn:Es; [|reflexivity]. cbn [bind].
  assert (Hv : Forall (fun b => 0 <= b < g_c (p_file p)) sel).
  { apply mapR_Forall2 in Es. induction Es as [|i b ? ? Hb _ IH]; constructor; [now apply py_get_zseq_in in Hb|exact IH]. }
  assert (HE := core_all (p_file p) lvl m y0 x0 ny nx sel (map (fun b => (lvl, b)) sel)
    (match (match m with None => None | Some _ => Some (map (g_nodata (p_file p) lvl) sel) end) with Some l => l | None => map (fun h => g_nodata (p_file p) (fst h) (snd h)) (map (fun b => (lvl, b)) sel) end)
    n Hf Hv eq_refl).
  assert (H1 : m <> None -> match match m with None => None | Some _ => Some (map (g_nodata (p_file p) lvl) sel) end with Some l => l | None => map (fun h => g_nodata (p_file p) (fst h) (snd h)) (map (fun b => (lvl, b)) sel) end = map (g_nodata (p_file p) lvl) sel).
  { destruct m; [reflexivity|congruence]. }
  assert (H2 : List.length (match match m with None => None | Some _ => Some (map (g_nodata (p_file p) lvl) sel) end with Some l => l | None => map (fun h => g_nodata (p_file p) (fst h) (snd h)) (map (fun b => (lvl, b)) sel) end) = List.length sel).
  { destruct m; now rewrite !map_length. }
  specialize (HE H1 H2). unfold try_except, andthen at 1.
  erewrite vendored_eq; [|exact Hs|reflexivity]. cbn zeta. rewrite <- HE. clear HE.
  match goal with |- fst (let (r, n') := let (r0, n0) := ?Y in _ in _) = match rmap fst (fst ?X) with _ => _ end => change Y with X; destruct X as [[r|e] n'] end; reflexivity.
Qed.

Lemma fast_all (s : lazy V) bands y0 x0 ny nx m n : (forall k, fate k = Works) ->
  fst (fast_io veq promote fate s bands y0 x0 ny nx m n) = fast_read veq promote s bands y0 x0 ny nx m.
Proof.
  intros Hf. unfold fast_io. destruct bands as [|b bands]; [reflexivity|]. unfold andthen, pure. destruct (read_ds s) eqn:E; [now rewrite Hf|].
  unfold fast_read. now rewrite E.
Qed.

Lemma getitem_io_all fast up (p : pfile V) o method index n : (forall k, fate k = Works) -> p_sub p = false -> 0 <= g_c (p_file p) ->
  fst (getitem_io veq promote index_of fate fast (fun _ _ _ => pure up) p o method index n) = getitem veq promote fast up (mkL (p_file p) o method) index.
Proof.
  intros Hf Hs HC. unfold getitem_io, getitem. unfold andthen at 1, pure at 1. destruct (shape _) as [[[h w] C]|e]; [|reflexivity]. cbn [bind].
  rewrite Hs, andb_false_r. unfold andthen at 1, pure at 1. destruct (expand_index index) as [ix|e]; [|reflexivity]. cbn [bind].
  unfold andthen at 1, pure at 1. destruct (request ix h w C) as [[bands [[[y0 x0] ny] nx]]|e]; [|reflexivity]. cbn [bind l_method].
  destruct fast; [|apply compat_all; assumption]. unfold try_except.
  assert (HF := fun m => fast_all (mkL (p_file p) o method) bands y0 x0 ny nx m n Hf).
  match goal with |- context [fast_io _ _ _ ?s ?b ?a1 ?a2 ?a3 ?a4 ?m n] => specialize (HF m); destruct (fast_io veq promote fate s b a1 a2 a3 a4 m n) as [[r|e] n'] end;
    cbn [fst] in HF; rewrite <- HF; [reflexivity|]. apply compat_all; assumption.
Qed.

End Reads.
