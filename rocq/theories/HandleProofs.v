(* Lemmas for HandleProps.v *)
From Verif Require Import Py PyProofs LazyModel LazyProofs HandleModel HandleSpec.
Local Open Scope Z_scope.

Section P.
Context {V : Type} (veq : V -> V -> bool) (promote : V -> V) (fast : bool).
Context (upstream : gfile V -> Z -> option string -> list idx -> result (rarr V)).
Local Notation step := (hstep veq promote fast upstream).
Local Notation run := (hrun veq promote fast upstream).
Local Notation item := (handle_getitem veq promote fast upstream).
Local Notation lz f h := (mkL f (h_overview h) (h_method h)).

Definition agrees (f : gfile V) (h : handle V) : Prop :=
  (forall a, h_shape h = Some a -> forall m, shape (mkL f (h_overview h) m) = Ok a) /\
  (forall a, h_num_absolute h = Some a -> a = g_count f) /\
  (forall a, h_num h = Some a -> a = g_count f - h_overview h) /\
  (forall a, h_read_ds h = Some a -> fst a = f /\ forall m, read_ds (mkL f (h_overview h) m) = Ok (snd a)) /\
  (forall a, h_read_bands h = Some a -> fst a = f /\ forall m, read_bands (mkL f (h_overview h) m) = Ok (snd a)) /\
  (forall a, h_band_nodata h = Some a -> forall m, exists lvl, read_bands (mkL f (h_overview h) m) = Ok lvl /\ a = map (g_nodata f lvl) (zseq (Z.to_nat (g_c f)))).
Definition blank (h : handle V) : Prop :=
  h_shape h = None /\ h_num_absolute h = None /\ h_num h = None /\ h_read_ds h = None /\ h_read_bands h = None /\ h_band_nodata h = None.
Definition inv (h : handle V) : Prop := match h_ds h with None => blank h | Some f => agrees f h end.
Definition same (h h' : handle V) : Prop := h_path h' = h_path h /\ h_method h' = h_method h /\ h_overview h' = h_overview h.

Definition sat {A} (f : gfile V) (c : call A) (r : Z -> option string -> result A) : Prop :=
  forall d h, h_ds h = Some f -> agrees f h ->
    exists h', c d h = (r (h_overview h) (h_method h), h') /\ h_ds h' = Some f /\ agrees f h' /\ same h h'.

Lemma same_trans a b c : same a b -> same b c -> same a c.
Proof. unfold same. intros (-> & -> & ->) (-> & -> & ->). auto. Qed.
Lemma sat_ret {A} f (r : result A) : sat f (ret r) (fun _ _ => r).
Proof. intros d h H A0. exists h. unfold ret, same. auto 10. Qed.
Lemma sat_here {A} f (c : call A) r : (forall d h, h_ds h = Some f -> c d h = (r (h_overview h) (h_method h), h)) -> sat f c r.
Proof. intros E d h H A0. exists h. rewrite E by exact H. unfold same. auto 10. Qed.
Lemma sat_then {A B} f (c : call A) (k : A -> call B) r s :
  sat f c r -> (forall a, (exists o m, r o m = Ok a) -> sat f (k a) (s a)) ->
  sat f (andthen c k) (fun o m => a <- r o m ;; s a o m).
Proof.
  intros Hc Hk d h H A0. destruct (Hc d h H A0) as (h1 & E & H1 & A1 & S1). unfold andthen. rewrite E.
  destruct (r (h_overview h) (h_method h)) as [a|e] eqn:Er; cbn [bind].
  - destruct (Hk a (ex_intro _ _ (ex_intro _ _ Er)) d h1 H1 A1) as (h2 & E2 & H2 & A2 & S2). exists h2. rewrite E2.
    destruct S1 as (P1 & M1 & O1). rewrite M1, O1. split; [reflexivity|]. split; [exact H2|]. split; [exact A2|].
    apply same_trans with h1; [unfold same; auto 10|exact S2].
  - exists h1. auto 10.
Qed.
Lemma sat_ext {A} f (c : call A) r s : (forall o m, r o m = s o m) -> sat f c r -> sat f c s.
Proof. intros E Hc d h H A0. destruct (Hc d h H A0) as (h1 & X & Y). exists h1. now rewrite <- E. Qed.
Lemma sat_ds f : sat f the_ds (fun _ _ => Ok f).
Proof. apply sat_here. intros d h H. unfold the_ds. now rewrite H. Qed.

Lemma sat_memo {A} f (get : handle V -> option A) set (c : call A) r :
  (forall h a, get h = Some a -> agrees f h -> r (h_overview h) (h_method h) = Ok a) ->
  (forall h a m, h_ds h = Some f -> agrees f h -> r (h_overview h) m = Ok a -> h_ds (set h a) = Some f /\ agrees f (set h a) /\ same h (set h a)) ->
  sat f c r -> sat f (memoized get set c) r.
Proof.
  intros G S Hc d h H A0. unfold memoized. destruct (get h) as [a|] eqn:Eg.
  - exists h. rewrite (G h a Eg A0). unfold same. auto 10.
  - destruct (Hc d h H A0) as (h1 & E & H1 & A1 & S1). rewrite E. destruct (r (h_overview h) (h_method h)) as [a|e] eqn:Er.
    + destruct (S h1 a (h_method h)) as (X & Y & Z0); [exact H1|exact A1|destruct S1 as (_ & _ & ->); exact Er|].
      exists (set h1 a). split; [reflexivity|]. split; [exact X|]. split; [exact Y|]. now apply same_trans with h1.
    + exists h1. auto 10.
Qed.

Ltac agr := unfold agrees; cbn; intuition (try congruence).
Lemma shape_m (f : gfile V) o m m' : shape (mkL f o m) = shape (mkL f o m'). Proof. reflexivity. Qed.
Lemma sat_shape f : sat f the_shape (fun o m => shape (mkL f o m)).
Proof.
  unfold the_shape. apply sat_memo.
  - intros h a E A0. apply A0, E.
  - intros h a m H A0 E. cbn. split; [exact H|]. split; [|unfold same; cbn; auto].
    destruct A0 as (_ & B). split; [|exact B]. cbn. intros b [= <-] m'. rewrite <- E. reflexivity.
  - apply sat_ext with (fun o m => _ <- Ok f ;; shape (mkL f o m)); [reflexivity|].
    apply (sat_then f the_ds _ (fun _ _ => Ok f) (fun g o m => shape (mkL g o m)) (sat_ds f)).
    intros a (o & m & [= <-]). apply sat_here. reflexivity.
Qed.
Lemma sat_num_absolute f : sat f the_num_absolute (fun _ _ => Ok (g_count f)).
Proof.
  unfold the_num_absolute. apply sat_memo.
  - intros h a E A0. f_equal. symmetry. apply A0, E.
  - intros h a m H A0 [= <-]. cbn. split; [exact H|]. split; [|unfold same; cbn; auto].
    destruct A0 as (B0 & _ & B). split; [exact B0|]. split; [|exact B]. cbn. congruence.
  - apply (sat_then f the_ds _ (fun _ _ => Ok f) (fun g o m => Ok (g_count g)) (sat_ds f)). intros a (o & m & [= <-]). apply sat_ret.
Qed.
Lemma sat_num f : sat f the_num (fun o m => Ok (num_overviews (mkL f o m))).
Proof.
  unfold the_num. apply sat_memo.
  - intros h a E A0. unfold num_overviews. cbn. f_equal. symmetry. apply A0, E.
  - intros h a m H A0 [= <-]. cbn. split; [exact H|]. split; [|unfold same; cbn; auto].
    destruct A0 as (B0 & B1 & _ & B). split; [exact B0|]. split; [exact B1|]. split; [|exact B]. cbn. unfold num_overviews. cbn. congruence.
  - apply (sat_then f the_num_absolute _ (fun _ _ => Ok (g_count f)) (fun n o m => Ok (n - o)) (sat_num_absolute f)). intros a (o & m & [= <-]). apply sat_here. reflexivity.
Qed.
Lemma sat_read_ds f : sat f the_read_ds (fun o m => lvl <- read_ds (mkL f o m) ;; Ok (f, lvl)).
Proof.
  unfold the_read_ds. apply sat_memo.
  - intros h a E A0. destruct (proj1 (proj2 (proj2 (proj2 A0))) a E) as (<- & X). rewrite (X (h_method h)). cbn. now destruct a.
  - intros h a m H A0 E. cbn. split; [exact H|]. split; [|unfold same; cbn; auto].
    destruct A0 as (B0 & B1 & B2 & _ & B). split; [exact B0|]. split; [exact B1|]. split; [exact B2|]. split; [|exact B]. cbn. intros b [= <-].
    apply bind_ok in E as (lvl & E & [= <-]). split; [reflexivity|]. intros m'. exact E.
  - apply (sat_then f the_ds _ (fun _ _ => Ok f) (fun g o m => lvl <- read_ds (mkL g o m) ;; Ok (g, lvl)) (sat_ds f)). intros a (o & m & [= <-]). apply sat_here. reflexivity.
Qed.
Lemma sat_read_bands f : sat f the_read_bands (fun o m => lvl <- read_bands (mkL f o m) ;; Ok (f, lvl)).
Proof.
  unfold the_read_bands. apply sat_memo.
  - intros h a E A0. destruct (proj1 (proj2 (proj2 (proj2 (proj2 A0)))) a E) as (<- & X). rewrite (X (h_method h)). cbn. now destruct a.
  - intros h a m H A0 E. cbn. split; [exact H|]. split; [|unfold same; cbn; auto].
    destruct A0 as (B0 & B1 & B2 & B3 & _ & B). split; [exact B0|]. split; [exact B1|]. split; [exact B2|]. split; [exact B3|]. split; [|exact B]. cbn. intros b [= <-].
    apply bind_ok in E as (lvl & E & [= <-]). split; [reflexivity|]. intros m'. exact E.
  - apply (sat_then f the_ds _ (fun _ _ => Ok f) (fun g o m => lvl <- read_bands (mkL g o m) ;; Ok (g, lvl)) (sat_ds f)). intros a (o & m & [= <-]). apply sat_here. reflexivity.
Qed.
Lemma sat_nodata f : sat f the_band_nodata (fun o m => lvl <- read_bands (mkL f o m) ;; Ok (map (g_nodata f lvl) (zseq (Z.to_nat (g_c f))))).
Proof.
  unfold the_band_nodata. apply sat_memo.
  - intros h a E A0. destruct (proj2 (proj2 (proj2 (proj2 (proj2 A0)))) a E (h_method h)) as (lvl & X & ->). now rewrite X.
  - intros h a m H A0 E. cbn. split; [exact H|]. split; [|unfold same; cbn; auto].
    destruct A0 as (B0 & B1 & B2 & B3 & B4 & _). split; [exact B0|]. split; [exact B1|]. split; [exact B2|]. split; [exact B3|]. split; [exact B4|]. cbn. intros b [= <-] m'.
    apply bind_ok in E as (lvl & E & [= <-]). exists lvl. split; [exact E|reflexivity].
  - apply sat_ext with (fun o m => b <- (lvl <- read_bands (mkL f o m) ;; Ok (f, lvl)) ;; Ok (map (g_nodata (fst b) (snd b)) (zseq (Z.to_nat (g_c (fst b)))))).
    { intros o m. destruct (read_bands _); reflexivity. }
    apply (sat_then f the_read_bands _ _ (fun b o m => Ok (map (g_nodata (fst b) (snd b)) (zseq (Z.to_nat (g_c (fst b)))))) (sat_read_bands f)).
    intros a _. apply sat_ret.
Qed.

Lemma sat_fast f bands yoff xoff ysize xsize m0 :
  sat f (handle_fast veq promote bands yoff xoff ysize xsize m0)
    (fun o m => fast_read veq promote (mkL f o m) bands yoff xoff ysize xsize m0).
Proof.
  unfold handle_fast, fast_read. destruct bands as [|b bands]; [apply sat_ret|].
  eapply sat_ext; [|apply (sat_then f the_read_ds _ _ (fun s o m => match gdal_window (fst s) (snd s) yoff xoff ysize xsize (b :: bands) with
     | None => Err OtherError
     | Some im => data <- mark_image veq promote m0 (map (g_nodata (fst s) (snd s)) (b :: bands)) im ;;
                  Ok (mkR (Z.of_nat (List.length (b :: bands)) =? 1) ysize xsize (Z.of_nat (List.length (b :: bands))) data) end) (sat_read_ds f))].
  - intros o m. cbn [l_file]. destruct (read_ds _); reflexivity.
  - intros a _. apply sat_ret.
Qed.

Lemma py_get_map {A B} (g : A -> B) l i : py_get (map g l) i = rmap g (py_get l i).
Proof. unfold py_get. rewrite map_length. cbv zeta. set (j := if i <? 0 then _ else _). destruct (j <? 0); [reflexivity|]. rewrite nth_error_map. destruct (nth_error l _); reflexivity. Qed.
Lemma mapR_py_get_map {A B} (g : A -> B) l is : mapR (py_get (map g l)) is = rmap (map g) (mapR (py_get l) is).
Proof.
  induction is as [|i is IH]; cbn [mapR]; [reflexivity|]. rewrite py_get_map, IH. destruct (py_get l i); cbn; [|reflexivity]. destruct (mapR (py_get l) is); reflexivity.
Qed.
Lemma mark_none (nds nds' : list (option V)) im : List.length nds = List.length nds' -> mark_image veq promote None nds im = mark_image veq promote None nds' im.
Proof.
  intros L. unfold mark_image. cbn [known_method].
  assert (E : forall px, mark_pixel veq promote None nds px = mark_pixel veq promote None nds' px).
  { revert nds' L. induction nds as [|n nds IH]; intros [|n' nds'] L px; try discriminate; [reflexivity|]. destruct px as [|v px]; [reflexivity|].
    cbn. rewrite (IH nds'); [reflexivity|]. now injection L. }
  assert (F : forall row, mapR (mark_pixel veq promote None nds) row = mapR (mark_pixel veq promote None nds') row).
  { intros row. induction row as [|px row IH]; cbn [mapR]; [reflexivity|]. now rewrite E, IH. }
  induction im as [|row im IH]; cbn [mapR]; [reflexivity|]. now rewrite F, IH.
Qed.

Lemma sat_compat f index bands yoff xoff ysize xsize m0 :
  sat f (handle_compat veq promote upstream f index bands yoff xoff ysize xsize m0)
    (fun o m => compat_read veq promote (upstream f o m index) (mkL f o m) bands yoff xoff ysize xsize m0).
Proof.
  intros d h H A0. unfold handle_compat, compat_read. unfold andthen at 1.
  destruct (sat_read_bands f d h H A0) as (h1 & E1 & H1 & A1 & S1). rewrite E1.
  destruct (read_bands _) as [lvl|e] eqn:Er; cbn [bind fst snd]; [|exists h1; auto 10].
  cbn [l_file]. unfold andthen at 1, ret at 1.
  destruct (mapR (py_get (zseq (Z.to_nat (g_c f)))) bands) as [sel|e] eqn:Es; cbn [bind]; [|exists h1; auto 10].
  assert (X : exists h2 nds, (match m0 with
      | None => ret (Ok (map (fun _ => None) sel))
      | Some _ => andthen the_band_nodata (fun all => ret (mapR (py_get all) bands))
      end) d h1 = (Ok nds, h2) /\ h_ds h2 = Some f /\ agrees f h2 /\ same h1 h2 /\
      (forall im, mark_image veq promote m0 nds im = mark_image veq promote m0 (map (g_nodata f lvl) sel) im)).
  { destruct m0 as [m0|].
    - unfold andthen. destruct (sat_nodata f d h1 H1 A1) as (h2 & E2 & H2 & A2 & S2). rewrite E2.
      assert (read_bands (lz f h1) = Ok lvl) as -> by (destruct S1 as (_ & _ & ->); exact Er).
      cbn [bind]. unfold ret. rewrite mapR_py_get_map, Es. cbn. eauto 10.
    - exists h1, (map (fun _ => None) sel). unfold ret. split; [reflexivity|]. split; [exact H1|]. split; [exact A1|]. split; [unfold same; auto 10|].
      intros im. apply mark_none. now rewrite !map_length. }
  destruct X as (h2 & nds & E2 & H2 & A2 & S2 & EM). unfold andthen at 1. rewrite E2. unfold ret. exists h2.
  split; [|split; [exact H2|]; split; [exact A2|]; now apply same_trans with h1].
  f_equal. destruct (same_trans _ _ _ S1 S2) as (_ & -> & ->).
  destruct sel as [|s sel]; [reflexivity|]. destruct (gdal_window _ _ _ _ _ _ _) as [im|]; [|reflexivity]. now rewrite EM.
Qed.

Lemma sat_item f index : sat f (item index) (fun o m => getitem veq promote fast (upstream f o m index) (mkL f o m) index).
Proof.
  intros d h H A0. unfold handle_getitem. unfold andthen at 1. unfold the_ds. rewrite H. unfold andthen at 1.
  destruct (sat_shape f d h H A0) as (h1 & E1 & H1 & A1 & S1). rewrite E1. unfold getitem.
  destruct (shape _) as [[[hh w] C]|e]; cbn [bind]; [|exists h1; auto 10]. unfold andthen at 1, ret at 1.
  destruct (expand_index index) as [i|e]; cbn [bind]; [|exists h1; auto 10].
  destruct (request i hh w C) as [[bands [[[yoff xoff] ysize] xsize]]|e]; cbn [bind]; [|exists h1; auto 10].
  destruct S1 as (P1 & M1 & O1). rewrite M1. cbn [l_method].
  set (m := match h_method h with Some _ => _ | None => _ end).
  assert (T : forall h2, h_ds h2 = Some f -> agrees f h2 -> same h h2 -> forall d, exists h', handle_compat veq promote upstream f index bands yoff xoff ysize xsize m d h2 =
     (compat_read veq promote (upstream f (h_overview h) (h_method h) index) (lz f h) bands yoff xoff ysize xsize m, h') /\ h_ds h' = Some f /\ agrees f h' /\ same h h').
  { intros h2 H2 A2 S2 d'. destruct (sat_compat f index bands yoff xoff ysize xsize m d' h2 H2 A2) as (h3 & E3 & H3 & A3 & S3). exists h3.
    destruct (S2) as (_ & M2 & O2). rewrite M2, O2 in E3. split; [exact E3|]. split; [exact H3|]. split; [exact A3|]. now apply same_trans with h2. }
  destruct fast; [|apply T; unfold same; auto 10].
  destruct (sat_fast f bands yoff xoff ysize xsize m d h1 H1 A1) as (h2 & E2 & H2 & A2 & S2). rewrite E2, M1, O1.
  assert (same h h2) as S by (apply same_trans with h1; [unfold same; auto 10|exact S2]).
  destruct (fast_read veq promote (lz f h) bands yoff xoff ysize xsize m) as [r|e]; [exists h2; auto 10|]. now apply T.
Qed.

Definition with_ds (h : handle V) (f : gfile V) : handle V :=
  mkHandle (h_path h) (h_method h) (h_overview h) (Some f) (h_shape h) (h_num_absolute h) (h_num h) (h_read_ds h) (h_read_bands h) (h_band_nodata h).
Definition unopened {A} (c : call A) : Prop := forall d (h : handle V), h_ds h = None -> blank h ->
  c d h = match on_disk (h_path h) d with None => (Err OtherError, h) | Some f => c d (with_ds h f) end.
Lemma unopened_shape : unopened the_shape.
Proof.
  intros d h H B. destruct h. unfold blank in B. cbn in *. destruct B as (-> & -> & -> & -> & -> & ->). subst.
  unfold the_shape, memoized, andthen, the_ds. cbn. destruct (on_disk _ _); reflexivity.
Qed.
Lemma unopened_num : unopened the_num.
Proof.
  intros d h H B. destruct h. unfold blank in B. cbn in *. destruct B as (-> & -> & -> & -> & -> & ->). subst.
  unfold the_num, the_num_absolute, memoized, andthen, the_ds. cbn. destruct (on_disk _ _); reflexivity.
Qed.
Lemma unopened_item index : unopened (item index).
Proof.
  intros d h H B. unfold handle_getitem, andthen at 1. unfold the_ds at 1. rewrite H.
  destruct (on_disk (h_path h) d) as [f|] eqn:E; [|reflexivity]. unfold andthen at 3. reflexivity.
Qed.
Lemma agrees_blank f h : blank h -> agrees f (with_ds h f).
Proof. intros (A & B & C & D & E & F). unfold agrees. cbn. rewrite A, B, C, D, E, F. repeat split; discriminate. Qed.

(* a call on an object that satisfies the invariant *)
Lemma call_ok {A} (c : call A) (r : gfile V -> Z -> option string -> result A) d h :
  (forall f, sat f c (r f)) -> unopened c -> inv h ->
  match (match h_ds h with Some f => Some f | None => on_disk (h_path h) d end) with
  | None => c d h = (Err OtherError, h)
  | Some f => exists h', c d h = (r f (h_overview h) (h_method h), h') /\ h_ds h' = Some f /\ agrees f h' /\ same h h'
  end.
Proof.
  intros S U I. unfold inv in I. destruct (h_ds h) as [f|] eqn:Eh; [exact (S f d h Eh I)|].
  pose proof (U d h Eh I) as X. destruct (on_disk _ _) as [f|]; [|exact X]. rewrite X.
  destruct (S f d (with_ds h f) eq_refl (agrees_blank f h I)) as (h' & Y). exists h'. exact Y.
Qed.

Lemma nth_put i j (h : handle V) l : nth_error (put i h l) j = if Nat.eqb i j then match nth_error l j with Some _ => Some h | None => None end else nth_error l j.
Proof.
  revert i j. induction l as [|x l IH]; intros [|i] [|j]; cbn; try reflexivity; [destruct (Nat.eqb i j); reflexivity|apply IH].
Qed.
Lemma put_length i (h : handle V) l : List.length (put i h l) = List.length l.
Proof. revert i. induction l as [|x l IH]; intros [|i]; cbn; congruence. Qed.

Definition good (y : system V) : Prop := forall i h, nth_error (y_objs y) i = Some h -> inv h.

(* how one call changes one object *)
Definition becomes (y : system V) (o : hop V) (i : nat) (h h' : handle V) : Prop :=
  h_path h' = h_path h /\ h_overview h' = h_overview h /\
  h_method h' = method_after i (h_method h) [o] /\
  inv h' /\
  (forall f, h_ds h = Some f -> h_ds h' = Some f) /\
  (uses o i -> h_ds h = None -> h_ds h' = on_disk (h_path h) (y_disk y)) /\
  (~ uses o i -> h_ds h' = h_ds h).

Lemma inv_method h m : inv h -> inv (set_method h m).
Proof. unfold inv. cbn. destruct (h_ds h); intros I; exact I. Qed.
Lemma inv_absolute h o : inv (handle_absolute h o).
Proof. unfold inv, handle_absolute. cbn. destruct (h_ds h); [unfold agrees|unfold blank]; cbn; repeat split; discriminate. Qed.

Lemma becomes_refl y o i h : inv h -> ~ uses o i -> method_after i (h_method h) [o] = h_method h -> becomes y o i h h.
Proof. intros I U M. unfold becomes. rewrite M. intuition congruence. Qed.

Lemma on_objects {A} y i (c : call A) (r : gfile V -> Z -> option string -> result A) k o :
  (forall f, sat f c (r f)) -> unopened c -> good y -> step y o = on y i c k -> uses o i -> (forall j, uses o j -> j = i) ->
  (forall j m, method_after j m [o] = m) ->
  good (fst (step y o)) /\ y_disk (fst (step y o)) = y_disk y /\
  forall j h, nth_error (y_objs y) j = Some h -> exists h', nth_error (y_objs (fst (step y o))) j = Some h' /\ becomes y o j h h'.
Proof.
  intros S U G E Ui Uj M. rewrite E. unfold on. destruct (nth_error (y_objs y) i) as [h0|] eqn:Ei.
  - pose proof (call_ok c r (y_disk y) h0 S U (G i h0 Ei)) as K.
    destruct (c (y_disk y) h0) as [res h1] eqn:Ec. cbn [fst].
    assert (B : becomes y o i h0 h1).
    { unfold becomes. rewrite (M i). destruct (h_ds h0) as [f|] eqn:Ed.
      - destruct K as (h' & [= -> ->] & D & A0 & P & Q & R). unfold inv. rewrite D. intuition congruence.
      - destruct (on_disk (h_path h0) (y_disk y)) as [f|].
        + destruct K as (h' & [= -> ->] & D & A0 & P & Q & R). unfold inv. rewrite D. intuition congruence.
        + injection K as -> ->. pose proof (G i h0 Ei) as I. intuition congruence. }
    split; [|split; [reflexivity|]].
    + intros j h. cbn. rewrite nth_put. destruct (Nat.eqb i j) eqn:Eij; [|apply G].
      apply Nat.eqb_eq in Eij. subst j. rewrite Ei. intros [= <-]. apply B.
    + intros j h Hj. cbn. rewrite nth_put. destruct (Nat.eqb i j) eqn:Eij.
      * apply Nat.eqb_eq in Eij. subst j. rewrite Hj. rewrite Ei in Hj. injection Hj as <-. exists h1. auto.
      * exists h. split; [exact Hj|]. apply becomes_refl; [exact (G j h Hj)| |apply M]. intros X. apply Uj in X. subst. now rewrite Nat.eqb_refl in Eij.
  - cbn. split; [exact G|]. split; [reflexivity|]. intros j h Hj. exists h. split; [exact Hj|]. apply becomes_refl; [exact (G j h Hj)| |apply M].
    intros X. apply Uj in X. congruence.
Qed.

Lemma on_disk_remove p q (d : disk (V := V)) : on_disk q (filter (fun e => negb (String.eqb (fst e) p)) d) = if String.eqb p q then None else on_disk q d.
Proof.
  induction d as [|[a g] d IH]; [cbn; destruct (String.eqb p q); reflexivity|]. cbn [filter fst]. destruct (String.eqb a p) eqn:E; cbn [negb on_disk]; rewrite IH.
  - apply String.eqb_eq in E. subst a. destruct (String.eqb p q); reflexivity.
  - destruct (String.eqb a q) eqn:E'; [|reflexivity]. apply String.eqb_eq in E'. subst a. rewrite String.eqb_sym, E. reflexivity.
Qed.
Lemma step_objects y o : good y ->
  good (fst (step y o)) /\
  (forall j h, nth_error (y_objs y) j = Some h -> exists h', nth_error (y_objs (fst (step y o))) j = Some h' /\ becomes y o j h h') /\
  forall p, on_disk p (y_disk (fst (step y o))) = contents p [o] (on_disk p (y_disk y)).
Proof.
  intros G.
  assert (SAME : forall d objs, (forall j h, nth_error (y_objs y) j = Some h -> nth_error objs j = Some h) ->
     (forall j h, nth_error objs j = Some h -> inv h) -> (forall j, ~ uses o j) -> (forall j m, method_after j m [o] = m) ->
     good (mkSys d objs) /\ forall j h, nth_error (y_objs y) j = Some h -> exists h', nth_error (y_objs (mkSys d objs)) j = Some h' /\ becomes y o j h h').
  { intros d objs X I U M. split; [exact I|]. intros j h Hj. exists h. split; [exact (X j h Hj)|]. apply becomes_refl; auto. exact (G j h Hj). }
  assert (APP : forall h0, inv h0 -> (forall j h, nth_error (y_objs y) j = Some h -> nth_error (y_objs y ++ [h0]) j = Some h) /\ (forall j h, nth_error (y_objs y ++ [h0]) j = Some h -> inv h)).
  { intros h0 I. split.
    - intros j h Hj. rewrite nth_error_app1; [exact Hj|]. apply nth_error_Some. congruence.
    - intros j h Hj. destruct (Nat.lt_ge_cases j (List.length (y_objs y))) as [L|L].
      + rewrite nth_error_app1 in Hj by exact L. exact (G j h Hj).
      + rewrite nth_error_app2 in Hj by exact L. destruct (j - _)%nat as [|[|]]; cbn in Hj; inversion Hj. now subst. }
  destruct o as [p f|p|p m ov|i ov|i ov|i m|i|i|i index]; cbn [hstep].
  - cbn [fst]. destruct (SAME ((p, f) :: y_disk y) (y_objs y)) as (A & B); [auto|exact G|intros j []|reflexivity|].
    split; [exact A|]. split; [exact B|]. intros q. cbn. destruct (String.eqb p q); reflexivity.
  - cbn [fst]. destruct (SAME (filter (fun e => negb (String.eqb (fst e) p)) (y_disk y)) (y_objs y)) as (A & B); [auto|exact G|intros j []|reflexivity|].
    split; [exact A|]. split; [exact B|]. intros q. apply on_disk_remove.
  - cbn [fst]. destruct (APP (new_handle p m ov)) as (X & Y); [cbn; unfold blank; cbn; auto 10|].
    destruct (SAME (y_disk y) (y_objs y ++ [new_handle p m ov])%list) as (A & B); [exact X|exact Y|intros j []|reflexivity|]. split; [exact A|]. split; [exact B|reflexivity].
  - destruct (nth_error (y_objs y) i) as [h0|] eqn:Ei; cbn [fst].
    + destruct (APP (handle_overview h0 ov)) as (X & Y); [apply inv_absolute|].
      destruct (SAME (y_disk y) (y_objs y ++ [handle_overview h0 ov])%list) as (A & B); [exact X|exact Y|intros j []|reflexivity|]. split; [exact A|]. split; [exact B|reflexivity].
    + destruct (SAME (y_disk y) (y_objs y)) as (A & B); [auto|exact G|intros j []|reflexivity|]. destruct y. split; [exact A|]. split; [exact B|reflexivity].
  - destruct (nth_error (y_objs y) i) as [h0|] eqn:Ei; cbn [fst].
    + destruct (APP (handle_absolute h0 ov)) as (X & Y); [apply inv_absolute|].
      destruct (SAME (y_disk y) (y_objs y ++ [handle_absolute h0 ov])%list) as (A & B); [exact X|exact Y|intros j []|reflexivity|]. split; [exact A|]. split; [exact B|reflexivity].
    + destruct (SAME (y_disk y) (y_objs y)) as (A & B); [auto|exact G|intros j []|reflexivity|]. destruct y. split; [exact A|]. split; [exact B|reflexivity].
  - destruct (nth_error (y_objs y) i) as [h0|] eqn:Ei; cbn [fst].
    + split; [|split; [|reflexivity]].
      * intros j h. cbn. rewrite nth_put. destruct (Nat.eqb i j) eqn:E; [|apply G]. apply Nat.eqb_eq in E. subst. rewrite Ei. intros [= <-]. apply inv_method, (G j h0 Ei).
      * intros j h Hj. cbn. rewrite nth_put. destruct (Nat.eqb i j) eqn:E.
        -- apply Nat.eqb_eq in E. subst. rewrite Hj. rewrite Ei in Hj. injection Hj as <-. exists (set_method h0 m). split; [reflexivity|].
           unfold becomes. cbn. rewrite Nat.eqb_refl. repeat split; auto. apply (inv_method h0 m), (G j h0 Ei). intros [].
        -- exists h. split; [exact Hj|]. apply becomes_refl; [exact (G j h Hj)|intros []|]. cbn. rewrite Nat.eqb_sym, E. reflexivity.
    + split; [exact G|]. split; [|reflexivity]. intros j h Hj. exists h. split; [exact Hj|]. apply becomes_refl; [exact (G j h Hj)|intros []|]. cbn.
      destruct (Nat.eqb_spec j i); [congruence|reflexivity].
  - destruct (on_objects y i the_shape (fun f o m => shape (mkL f o m)) SShape (Shape i)) as (A & D & B); try assumption; try reflexivity; [exact sat_shape|exact unopened_shape|intros j X; exact X|].
    cbn [hstep] in *. rewrite D. split; [exact A|]. split; [exact B|reflexivity].
  - destruct (on_objects y i the_num (fun f o m => Ok (num_overviews (mkL f o m))) SNum (Num i)) as (A & D & B); try assumption; try reflexivity; [exact sat_num|exact unopened_num|intros j X; exact X|].
    cbn [hstep] in *. rewrite D. split; [exact A|]. split; [exact B|reflexivity].
  - destruct (on_objects y i (item index) (fun f o m => getitem veq promote fast (upstream f o m index) (mkL f o m) index) SItem (Item i index)) as (A & D & B); try assumption; try reflexivity; [intros f; apply sat_item|apply unopened_item|intros j X; exact X|].
    cbn [hstep] in *. rewrite D. split; [exact A|]. split; [exact B|reflexivity].
Qed.

Lemma run_app y a b : fst (run y (a ++ b)) = fst (run (fst (run y a)) b).
Proof.
  revert y. induction a as [|o a IH]; intros y; [reflexivity|]. cbn. destruct (step y o) as [y1 s] eqn:E. specialize (IH y1).
  destruct (run y1 (a ++ b)) as [y2 ss]. destruct (run y1 a) as [y3 ss']. cbn in *. exact IH.
Qed.
Lemma run_one y o : fst (run y [o]) = fst (step y o).
Proof. cbn. destruct (step y o). reflexivity. Qed.
Lemma run_cons y o l : fst (run y (o :: l)) = fst (run (fst (step y o)) l).
Proof. change (o :: l) with ([o] ++ l)%list. now rewrite run_app, run_one. Qed.
Lemma contents_app p (a b : list (hop V)) c : contents p (a ++ b) c = contents p b (contents p a c).
Proof. revert c. induction a as [|o a IH]; intros c; [reflexivity|]. destruct o; cbn; apply IH. Qed.
Lemma contents_cons p (o : hop V) l c : contents p (o :: l) c = contents p l (contents p [o] c).
Proof. exact (contents_app p [o] l c). Qed.
Lemma method_cons i m (o : hop V) l : method_after i m (o :: l) = method_after i (method_after i m [o]) l.
Proof. reflexivity. Qed.
Lemma method_app i m (a b : list (hop V)) : method_after i m (a ++ b) = method_after i (method_after i m a) b.
Proof. apply fold_left_app. Qed.

Lemma run_good y l : good y -> good (fst (run y l)) /\ forall p, on_disk p (y_disk (fst (run y l))) = contents p l (on_disk p (y_disk y)).
Proof.
  revert y. induction l as [|o l IH]; intros y G; [split; [exact G|reflexivity]|].
  rewrite run_cons. destruct (step_objects y o G) as (G1 & _ & D1). destruct (IH _ G1) as (G2 & D2). split; [exact G2|]. intros p. rewrite D2, D1. symmetry. apply contents_cons.
Qed.
Lemma good_start : good hstart.
Proof. intros [|i] h; discriminate. Qed.
Lemma after_good l : good (after veq promote fast upstream l).
Proof. apply run_good, good_start. Qed.
Lemma after_disk l p : on_disk p (y_disk (after veq promote fast upstream l)) = contents p l None.
Proof. unfold after. rewrite (proj2 (run_good hstart l good_start)). reflexivity. Qed.

(* an opened object keeps its dataset *)
Lemma run_opened y l i h f : good y -> nth_error (y_objs y) i = Some h -> h_ds h = Some f ->
  exists h', nth_error (y_objs (fst (run y l))) i = Some h' /\ h_ds h' = Some f /\ h_path h' = h_path h /\ h_overview h' = h_overview h /\ h_method h' = method_after i (h_method h) l.
Proof.
  revert y h. induction l as [|o l IH]; intros y h G Hi D; [exists h; auto 10|].
  rewrite run_cons. destruct (step_objects y o G) as (G1 & B1 & _). destruct (B1 i h Hi) as (h1 & H1 & P & O & M & _ & F & _).
  destruct (IH _ h1 G1 H1 (F f D)) as (h2 & H2 & D2 & P2 & O2 & M2). exists h2. rewrite method_cons, <- M, P2, O2, P, O. auto 10.
Qed.
(* an object not used, or used only while there was no file, stays unopened *)
Lemma run_unopened y l i h : good y -> nth_error (y_objs y) i = Some h -> h_ds h = None ->
  (forall a x b, l = (a ++ x :: b)%list -> uses x i -> contents (h_path h) a (on_disk (h_path h) (y_disk y)) = None) ->
  exists h', nth_error (y_objs (fst (run y l))) i = Some h' /\ h_ds h' = None /\ h_path h' = h_path h /\ h_overview h' = h_overview h /\ h_method h' = method_after i (h_method h) l.
Proof.
  revert y h. induction l as [|o l IH]; intros y h G Hi D U; [exists h; auto 10|].
  rewrite run_cons. destruct (step_objects y o G) as (G1 & B1 & D1). destruct (B1 i h Hi) as (h1 & H1 & P & O & M & _ & _ & F & F').
  assert (N : h_ds h1 = None).
  { assert (uses o i \/ ~ uses o i) as [X|X] by (destruct o; cbn; try (right; tauto); destruct (Nat.eq_dec i i0); tauto).
    - rewrite (F X D). exact (U [] o l eq_refl X).
    - now rewrite (F' X). }
  destruct (IH _ h1 G1 H1 N) as (h2 & H2 & D2 & P2 & O2 & M2).
  - intros a x b -> X. rewrite P, D1, <- contents_cons. exact (U (o :: a) x b eq_refl X).
  - exists h2. rewrite method_cons, <- M, P2, O2, P, O. auto 10.
Qed.

Lemma shows_opened y i h f : good y -> nth_error (y_objs y) i = Some h -> h_ds h = Some f -> shows veq promote fast upstream y i f (h_overview h) (h_method h).
Proof.
  intros G Hi D. pose proof (G i h Hi) as I. unfold inv in I. rewrite D in I. unfold shows. cbn [hstep]. unfold on. rewrite Hi.
  destruct (sat_shape f (y_disk y) h D I) as (h1 & -> & _). destruct (sat_num f (y_disk y) h D I) as (h2 & -> & _).
  split; [reflexivity|]. split; [reflexivity|]. intros index. destruct (sat_item f index (y_disk y) h D I) as (h3 & -> & _). reflexivity.
Qed.
End P.
