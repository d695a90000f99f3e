(* C139: what prepare() saw is what finalize() reads. *)
From Verif Require Import Py PyProofs LazyModel LazySpec LazyProofs HandleModel HandleSpec HandleProofs LoadHistModel.
Local Open Scope Z_scope.

(** ** Vocabulary *)
Section Spec.
Context {V : Type}.
(* what a file says of itself *)
Definition file_says (f : gfile V) : source := SGdal (g_h f 0) (g_w f 0) (g_c f) (g_count f).
(* calls on image i that look into the file, if it was made with this metadata *)
Definition touches (given : lmeta) (o : lop V) (i : nat) : Prop :=
  match o with LFinalize j _ => i = j | LPrepare j => i = j /\ complete given = false | _ => False end.
(* the nodata method last set by finalize(nodata_method=...) *)
Definition nodata_after (i : nat) (m : option string) (l : list (lop V)) : option string :=
  fold_left (fun m o => match o with LFinalize j (Some m') => if Nat.eqb i j then m' else m | _ => m end) l m.
(* the contents of a path after a history *)
Fixpoint holds (p : string) (l : list (lop V)) (c : option (gfile V)) : option (gfile V) :=
  match l with
  | [] => c
  | LWrite q f :: l' => holds p l' (if String.eqb q p then Some f else c)
  | LRemove q :: l' => holds p l' (if String.eqb q p then None else c)
  | _ :: l' => holds p l' c
  end.
End Spec.

Section P.
Context {V : Type} (veq : V -> V -> bool) (promote : V -> V) (fast : bool).
Context (upstream : gfile V -> Z -> option string -> list idx -> result (rarr V)).
Context (file_shape : gfile V -> Z * Z * option Z) (imread : gfile V -> rarr V).
Local Notation step := (lstep veq promote fast upstream true file_shape imread).
Local Notation run := (lrun veq promote fast upstream true file_shape imread lstart).
Local Notation prep := (prepare_load true file_shape).
Local Notation rd := (read_load veq promote fast upstream true imread).

Definition count (l : list (lop V)) : nat := List.length (z_objs (run l)).
(* the metadata image i reports, and the array finalize() gives, are those of the contents f *)
Definition loads (y : lsystem V) (i : nat) (f : gfile V) (meta : lmeta) (m : option string) : Prop :=
  snd (step y (LMeta i)) = LIs meta /\
  forall kw, let m' := match kw with None => m | Some m' => m' end in
    snd (step y (LFinalize i kw)) = LArray (getitem veq promote fast (upstream f 0 m' [full]) (mkL f 0 m') [full]).

Definition version (i : load V) : option (gfile V) := match i_ref i with RGdal h => h_ds h | _ => None end.
Definition linv (i : load V) : Prop :=
  match i_ref i with RNone => True | RPlain => False | RGdal h => inv h /\ h_path h = i_path i /\ h_overview h = 0 end /\
  (version i <> None -> complete (i_meta i) = true).
Definition meta_after (meta : lmeta) (f : gfile V) : lmeta := load_metadata (file_says f) meta.

Lemma filled meta (f : gfile V) : complete (meta_after meta f) = true.
Proof.
  unfold meta_after, load_metadata, complete. destruct meta as [ds c n]. cbn.
  destruct (is_some ds && is_some c && is_some n && full_size ds) eqn:E; [exact E|]. cbn.
  destruct (full_size ds) eqn:F; [|destruct c; reflexivity]. destruct ds as [[[] []]|]; try discriminate. destruct c; reflexivity.
Qed.
Lemma kept meta (f : gfile V) : complete meta = true -> meta_after meta f = meta.
Proof. intros E. unfold meta_after, load_metadata. unfold complete in E. now rewrite E. Qed.

Lemma reference_ok (i : load V) : linv i -> exists h, load_reference true i = (Ok tt, mkLoad (i_path i) (i_method i) (i_meta i) (RGdal h)) /\
  inv h /\ h_path h = i_path i /\ h_overview h = 0 /\ h_ds h = version i.
Proof.
  intros (I & _). unfold load_reference, version. destruct i as [p m meta r]. cbn in *. destruct r as [| |h]; [|contradiction|].
  - eexists. split; [reflexivity|]. cbn. unfold blank. cbn. auto 10.
  - exists h. intuition.
Qed.

Lemma shape_base (f : gfile V) m : shape (mkL f 0 m) = Ok (g_h f 0, g_w f 0, g_c f).
Proof. reflexivity. Qed.

(* looking something up *)
Lemma look {A} (c : call A) (r : gfile V -> Z -> option string -> result A) d h f :
  (forall f, sat f c (r f)) -> unopened c -> inv h ->
  (match h_ds h with Some f => Some f | None => on_disk (h_path h) d end) = Some f ->
  exists h', c d h = (r f (h_overview h) (h_method h), h') /\ h_ds h' = Some f /\ inv h' /\ same h h'.
Proof.
  intros S U I E. pose proof (call_ok c r d h S U I) as K. rewrite E in K. destruct K as (h' & X & D & A0 & Y).
  exists h'. split; [exact X|]. split; [exact D|]. split; [|exact Y]. unfold inv. now rewrite D.
Qed.
Lemma look_none {A} (c : call A) (r : gfile V -> Z -> option string -> result A) d h :
  (forall f, sat f c (r f)) -> unopened c -> inv h ->
  (match h_ds h with Some f => Some f | None => on_disk (h_path h) d end) = None -> c d h = (Err OtherError, h).
Proof. intros S U I E. pose proof (call_ok c r d h S U I) as K. now rewrite E in K. Qed.

Definition found (d : disk) (i : load V) : option (gfile V) := match version i with Some f => Some f | None => on_disk (i_path i) d end.

Lemma prepare_ok d i : linv i -> complete (i_meta i) = false ->
  match found d i with
  | None => exists i', prep d i = (Err OtherError, i') /\ linv i' /\ version i' = None /\ i_path i' = i_path i /\ i_method i' = i_method i /\ i_meta i' = i_meta i
  | Some f => exists i', prep d i = (Ok tt, i') /\ linv i' /\ version i' = Some f /\ i_path i' = i_path i /\ i_method i' = i_method i /\ i_meta i' = meta_after (i_meta i) f
  end.
Proof.
  intros L N. unfold prepare_load. rewrite N. destruct (reference_ok i L) as (h & -> & I & P & O & D). cbn [i_ref].
  unfold found. rewrite <- D, <- P. destruct (match h_ds h with Some f => Some f | None => on_disk (h_path h) d end) as [f|] eqn:E.
  - destruct (look the_shape (fun f o m => shape (mkL f o m)) d h f sat_shape unopened_shape I E) as (h1 & -> & D1 & I1 & P1 & M1 & O1). rewrite O, shape_base.
    destruct (look the_num (fun f o m => Ok (num_overviews (mkL f o m))) d h1 f sat_num unopened_num I1) as (h2 & -> & D2 & I2 & P2 & M2 & O2); [now rewrite D1|].
    eexists. split; [reflexivity|]. cbn. unfold linv, version. cbn. split; [split; [|intros _]|].
    + split; [exact I2|]. split; congruence.
    + rewrite O1, O. unfold num_overviews. cbn. rewrite Z.sub_0_r. apply filled.
    + rewrite O1, O. unfold num_overviews. cbn. rewrite Z.sub_0_r. repeat split; try congruence; exact D2.
  - pose proof (look_none the_shape (fun f o m => shape (mkL f o m)) d h sat_shape unopened_shape I E) as ->.
    assert (h_ds h = None) as X by (destruct (h_ds h); congruence).
    eexists. split; [reflexivity|]. cbn. unfold linv, version. cbn. rewrite X. repeat split; auto; congruence.
Qed.

Lemma read_ok d i : linv i -> complete (i_meta i) = true ->
  match found d i with
  | None => exists i', rd d i = (Err OtherError, i') /\ linv i' /\ version i' = None /\ i_path i' = i_path i /\ i_method i' = i_method i /\ i_meta i' = i_meta i
  | Some f => exists i', rd d i = (getitem veq promote fast (upstream f 0 (i_method i) [full]) (mkL f 0 (i_method i)) [full], i') /\
       linv i' /\ version i' = Some f /\ i_path i' = i_path i /\ i_method i' = i_method i /\ i_meta i' = i_meta i
  end.
Proof.
  intros L N. unfold read_load. destruct (reference_ok i L) as (h & -> & I & P & O & D). cbn [i_ref i_method].
  unfold found. rewrite <- D, <- P.
  pose proof (inv_method h (i_method i) I) as I'.
  set (r := fun f o m => getitem veq promote fast (upstream f o m [full]) (mkL f o m) [full]).
  destruct (match h_ds h with Some f => Some f | None => on_disk (h_path h) d end) as [f|] eqn:E.
  - destruct (look (handle_getitem veq promote fast upstream [full]) r d _ f (fun f => sat_item veq promote fast upstream f [full]) (unopened_item veq promote fast upstream [full]) I' E) as (h1 & -> & D1 & I1 & P1 & M1 & O1).
    unfold r. cbn [h_overview h_method set_method]. rewrite O. eexists. split; [reflexivity|]. unfold linv, version. cbn. cbn in P1, O1. repeat split; auto; congruence.
  - pose proof (look_none (handle_getitem veq promote fast upstream [full]) r d _ (fun f => sat_item veq promote fast upstream f [full]) (unopened_item veq promote fast upstream [full]) I' E) as ->.
    assert (h_ds h = None) as X by (destruct (h_ds h); congruence).
    eexists. split; [reflexivity|]. unfold linv, version. cbn. rewrite X. repeat split; auto; congruence.
Qed.

Lemma linv_method i m : linv i -> linv (mkLoad (i_path i) m (i_meta i) (i_ref i)).
Proof. intros I. exact I. Qed.

Lemma finalize_ok d i kw : linv i -> let m := match kw with None => i_method i | Some m => m end in
  match found d i with
  | None => exists i', finalize_load veq promote fast upstream true file_shape imread kw d i = (Err OtherError, i') /\ linv i' /\ version i' = None /\ i_path i' = i_path i /\ i_method i' = m /\ i_meta i' = i_meta i
  | Some f => exists i', finalize_load veq promote fast upstream true file_shape imread kw d i = (getitem veq promote fast (upstream f 0 m [full]) (mkL f 0 m) [full], i') /\
       linv i' /\ version i' = Some f /\ i_path i' = i_path i /\ i_method i' = m /\ i_meta i' = meta_after (i_meta i) f
  end.
Proof.
  intros L m. unfold finalize_load.
  assert (X : exists j, match kw with None => i | Some m => mkLoad (i_path i) m (i_meta i) (i_ref i) end = j /\ linv j /\ i_path j = i_path i /\ i_method j = m /\ i_meta j = i_meta i /\ version j = version i).
  { subst m. destruct kw; eexists; split; try reflexivity; repeat split; try exact L; try apply L. }
  destruct X as (j & -> & Lj & Pj & Mj & Tj & Vj).
  assert (Fj : found d j = found d i) by (unfold found; now rewrite Vj, Pj). rewrite <- Fj.
  destruct (complete (i_meta j)) eqn:C.
  - assert (prep d j = (Ok tt, j)) as -> by (unfold prepare_load; now rewrite C).
    pose proof (read_ok d j Lj C) as R. destruct (found d j) as [f|]; destruct R as (j' & -> & L' & V' & P' & M' & T'); exists j'.
    + rewrite Mj, kept by congruence. repeat split; try apply L'; congruence.
    + repeat split; try apply L'; congruence.
  - pose proof (prepare_ok d j Lj C) as R. destruct (found d j) as [f|] eqn:Ef; destruct R as (j' & -> & L' & V' & P' & M' & T').
    + assert (C' : complete (i_meta j') = true) by (rewrite T'; apply filled).
      pose proof (read_ok d j' L' C') as R. assert (found d j' = Some f) as Y by (unfold found; now rewrite V'). rewrite Y in R.
      destruct R as (k & -> & Lk & Vk & Pk & Mk & Tk). exists k. rewrite M', Mj. repeat split; try apply Lk; congruence.
    + exists j'. repeat split; try apply L'; congruence.
Qed.

Lemma nth_lput n k (i : load V) l : nth_error (lput n i l) k = if Nat.eqb n k then match nth_error l k with Some _ => Some i | None => None end else nth_error l k.
Proof. revert n k. induction l as [|x l IH]; intros [|n] [|k]; cbn; try reflexivity; [destruct (Nat.eqb n k); reflexivity|apply IH]. Qed.

Definition lgood (y : lsystem V) : Prop := forall k i, nth_error (z_objs y) k = Some i -> linv i.
Definition lbecomes (y : lsystem V) (o : lop V) (k : nat) (i i' : load V) : Prop :=
  i_path i' = i_path i /\ i_method i' = nodata_after k (i_method i) [o] /\ linv i' /\
  (forall f, version i = Some f -> version i' = Some f /\ i_meta i' = i_meta i) /\
  (version i = None -> touches (i_meta i) o k -> version i' = on_disk (i_path i) (z_disk y) /\
      i_meta i' = match on_disk (i_path i) (z_disk y) with Some f => meta_after (i_meta i) f | None => i_meta i end) /\
  (version i = None -> ~ touches (i_meta i) o k -> version i' = None /\ i_meta i' = i_meta i).

Lemma lbecomes_refl y o k i : linv i -> ~ touches (i_meta i) o k -> nodata_after k (i_method i) [o] = i_method i -> lbecomes y o k i i.
Proof. intros I U M. unfold lbecomes. rewrite M. intuition. Qed.

Lemma lstep_objects y o : lgood y ->
  lgood (fst (step y o)) /\
  (forall k i, nth_error (z_objs y) k = Some i -> exists i', nth_error (z_objs (fst (step y o))) k = Some i' /\ lbecomes y o k i i') /\
  forall p, on_disk p (z_disk (fst (step y o))) = holds p [o] (on_disk p (z_disk y)).
Proof.
  intros G.
  assert (SAME : forall d objs, (forall k i, nth_error (z_objs y) k = Some i -> nth_error objs k = Some i) ->
     (forall k i, nth_error objs k = Some i -> linv i) -> (forall g k, ~ touches g o k) -> (forall k m, nodata_after k m [o] = m) ->
     lgood (mkLSys d objs) /\ forall k i, nth_error (z_objs y) k = Some i -> exists i', nth_error (z_objs (mkLSys d objs)) k = Some i' /\ lbecomes y o k i i').
  { intros d objs X I U M. split; [exact I|]. intros k i Hk. exists i. split; [exact (X k i Hk)|]. apply lbecomes_refl; auto. exact (G k i Hk). }
  assert (ONE : forall n i i', nth_error (z_objs y) n = Some i -> lbecomes y o n i i' -> linv i' ->
     (forall k g, k <> n -> ~ touches g o k) -> (forall k m, k <> n -> nodata_after k m [o] = m) ->
     lgood (mkLSys (z_disk y) (lput n i' (z_objs y))) /\ forall k j, nth_error (z_objs y) k = Some j -> exists j', nth_error (lput n i' (z_objs y)) k = Some j' /\ lbecomes y o k j j').
  { intros n i i' Hn B I U M. split.
    - intros k j. cbn. rewrite nth_lput. destruct (Nat.eqb_spec n k) as [<-|Ne]; [|apply G]. rewrite Hn. intros [= <-]. exact I.
    - intros k j Hk. rewrite nth_lput. destruct (Nat.eqb_spec n k) as [<-|Ne].
      + rewrite Hk. rewrite Hn in Hk. injection Hk as <-. exists i'. auto.
      + exists j. split; [exact Hk|]. apply lbecomes_refl; [exact (G k j Hk)|apply U; auto|apply M; auto]. }
  destruct o as [p f|p|p m g|n|n kw|n]; cbn [lstep].
  - destruct (SAME ((p, f) :: z_disk y) (z_objs y)) as (A & B); [auto|exact G|intros g k []|reflexivity|].
    split; [exact A|]. split; [exact B|]. intros q. cbn. destruct (String.eqb p q); reflexivity.
  - destruct (SAME (filter (fun e => negb (String.eqb (fst e) p)) (z_disk y)) (z_objs y)) as (A & B); [auto|exact G|intros g k []|reflexivity|].
    split; [exact A|]. split; [exact B|]. intros q. apply on_disk_remove.
  - destruct (SAME (z_disk y) (z_objs y ++ [new_load p m g])%list) as (A & B); [| |intros g' k []|reflexivity|split; [exact A|]; split; [exact B|reflexivity]].
    + intros k i Hk. rewrite nth_error_app1; [exact Hk|]. apply nth_error_Some. congruence.
    + intros k i Hk. destruct (Nat.lt_ge_cases k (List.length (z_objs y))) as [L|L].
      * rewrite nth_error_app1 in Hk by exact L. exact (G k i Hk).
      * rewrite nth_error_app2 in Hk by exact L. destruct (k - _)%nat as [|[|]]; cbn in Hk; inversion Hk. unfold linv. cbn. split; [exact I|congruence].
  - destruct (nth_error (z_objs y) n) as [i|] eqn:Hn.
    + pose proof (G n i Hn) as I.
      assert (X : exists r i', prep (z_disk y) i = (r, i') /\ lbecomes y (LPrepare n) n i i').
      { destruct (complete (i_meta i)) eqn:C.
        - exists (Ok tt), i. split; [unfold prepare_load; now rewrite C|]. apply lbecomes_refl; [exact I|cbn; intros [_ ?]; congruence|reflexivity].
        - pose proof (prepare_ok (z_disk y) i I C) as R. unfold found in R.
          destruct (version i) as [f|] eqn:Vi; [destruct I as (_ & I'); rewrite Vi in I'; rewrite I' in C by discriminate; discriminate|].
          destruct (on_disk (i_path i) (z_disk y)) as [f|] eqn:Ed; destruct R as (i' & E & L' & V' & P' & M' & T'); eexists _, i'; (split; [exact E|]); unfold lbecomes; cbn;
            rewrite Ed, Vi; (split; [exact P'|]; split; [exact M'|]; split; [exact L'|]; split; [discriminate|]; split; [auto|]; intros _ Q; exfalso; apply Q; auto). }
      destruct X as (r & i' & -> & B). cbn [fst z_objs z_disk].
      destruct (ONE n i i' Hn B) as (A & B'); [apply B|intros k g Ne; cbn; tauto|reflexivity|]. split; [exact A|]. split; [exact B'|reflexivity].
    + split; [exact G|]. split; [|reflexivity]. intros k i Hk. exists i. split; [exact Hk|]. apply lbecomes_refl; [exact (G k i Hk)|cbn; intros [-> _]; congruence|reflexivity].
  - destruct (nth_error (z_objs y) n) as [i|] eqn:Hn.
    + pose proof (G n i Hn) as I.
      assert (X : exists r i', finalize_load veq promote fast upstream true file_shape imread kw (z_disk y) i = (r, i') /\ lbecomes y (LFinalize n kw) n i i').
      { pose proof (finalize_ok (z_disk y) i kw I) as R. cbn zeta in R. unfold found in R.
        assert (NM : nodata_after n (i_method i) [LFinalize n kw : lop V] = match kw with None => i_method i | Some m => m end) by (destruct kw; cbn; rewrite ?Nat.eqb_refl; reflexivity).
        destruct (version i) as [f|] eqn:Vi.
        - destruct R as (i' & E & L' & V' & P' & M' & T'). eexists _, i'. split; [exact E|]. unfold lbecomes. rewrite NM, Vi. rewrite kept in T' by (apply I; rewrite Vi; discriminate).
          split; [exact P'|]. split; [exact M'|]. split; [exact L'|]. split; [intros f' [= <-]; auto|]. split; discriminate.
        - destruct (on_disk (i_path i) (z_disk y)) as [f|] eqn:Ed; destruct R as (i' & E & L' & V' & P' & M' & T'); eexists _, i'; (split; [exact E|]); unfold lbecomes;
            rewrite NM, Ed, Vi; (split; [exact P'|]; split; [exact M'|]; split; [exact L'|]; split; [discriminate|]; split; [auto|]; intros _ Q; exfalso; apply Q; reflexivity). }
      destruct X as (r & i' & -> & B). cbn [fst z_objs z_disk].
      destruct (ONE n i i' Hn B) as (A & B'); [apply B|intros k g Ne; cbn; tauto|intros k m Ne; cbn; destruct kw; [destruct (Nat.eqb_spec k n); [contradiction|reflexivity]|reflexivity]|]. split; [exact A|]. split; [exact B'|reflexivity].
    + split; [exact G|]. split; [|reflexivity]. intros k i Hk. exists i. split; [exact Hk|]. apply lbecomes_refl; [exact (G k i Hk)|cbn; intros ->; congruence|].
      cbn. destruct kw; [destruct (Nat.eqb_spec k n); [congruence|reflexivity]|reflexivity].
  - assert (E : forall w : lsystem V * lseen V, fst w = y -> lgood (fst w) /\
      (forall k i, nth_error (z_objs y) k = Some i -> exists i', nth_error (z_objs (fst w)) k = Some i' /\ lbecomes y (LMeta n) k i i') /\
      forall p, on_disk p (z_disk (fst w)) = holds p [LMeta n] (on_disk p (z_disk y))); [|apply E; destruct (nth_error _ _); reflexivity].
    intros w ->. split; [exact G|]. split; [|reflexivity]. intros k i Hk. exists i. split; [exact Hk|]. apply lbecomes_refl; [exact (G k i Hk)|intros []|reflexivity].
Qed.

Local Notation runs := (lrun veq promote fast upstream true file_shape imread).
Lemma holds_app p (a b : list (lop V)) c : holds p (a ++ b) c = holds p b (holds p a c).
Proof. revert c. induction a as [|o a IH]; intros c; [reflexivity|]. destruct o; cbn; apply IH. Qed.
Lemma lrun_good y l : lgood y -> lgood (runs y l) /\ forall p, on_disk p (z_disk (runs y l)) = holds p l (on_disk p (z_disk y)).
Proof.
  revert y. induction l as [|o l IH]; intros y G; [split; [exact G|reflexivity]|]. destruct (lstep_objects y o G) as (G1 & _ & D1).
  destruct (IH _ G1) as (G2 & D2). split; [exact G2|]. intros p. change (runs y (o :: l)) with (runs (fst (step y o)) l). rewrite D2, D1. symmetry. exact (holds_app p [o] l _).
Qed.
Lemma lgood_start : lgood lstart. Proof. intros [|k] i; discriminate. Qed.
Lemma run_good' l : lgood (run l). Proof. apply lrun_good, lgood_start. Qed.
Lemma run_disk' l p : on_disk p (z_disk (run l)) = holds p l None.
Proof. rewrite (proj2 (lrun_good lstart l lgood_start)). reflexivity. Qed.
Lemma lrun_app y a b : runs y (a ++ b) = runs (runs y a) b.
Proof. apply fold_left_app. Qed.

Lemma lrun_opened y l k i f : lgood y -> nth_error (z_objs y) k = Some i -> version i = Some f ->
  exists i', nth_error (z_objs (runs y l)) k = Some i' /\ version i' = Some f /\ i_meta i' = i_meta i /\ i_method i' = nodata_after k (i_method i) l.
Proof.
  revert y i. induction l as [|o l IH]; intros y i G Hk D; [exists i; auto|].
  destruct (lstep_objects y o G) as (G1 & B1 & _). destruct (B1 k i Hk) as (i1 & H1 & P & M & _ & F & _). destruct (F f D) as (V1 & T1).
  destruct (IH _ i1 G1 H1 V1) as (i2 & H2 & V2 & T2 & M2). exists i2. rewrite M in M2. split; [exact H2|]. split; [exact V2|]. split; [congruence|exact M2].
Qed.
Lemma lrun_unopened y l k i : lgood y -> nth_error (z_objs y) k = Some i -> version i = None ->
  (forall a x b, l = (a ++ x :: b)%list -> touches (i_meta i) x k -> holds (i_path i) a (on_disk (i_path i) (z_disk y)) = None) ->
  exists i', nth_error (z_objs (runs y l)) k = Some i' /\ version i' = None /\ i_path i' = i_path i /\ i_meta i' = i_meta i /\ i_method i' = nodata_after k (i_method i) l.
Proof.
  revert y i. induction l as [|o l IH]; intros y i G Hk D U; [exists i; auto 10|].
  destruct (lstep_objects y o G) as (G1 & B1 & D1). destruct (B1 k i Hk) as (i1 & H1 & P & M & _ & _ & F & F').
  assert (N : version i1 = None /\ i_meta i1 = i_meta i).
  { assert (touches (i_meta i) o k \/ ~ touches (i_meta i) o k) as [X|X].
    { destruct o as [| | |n|n kw|n]; cbn; try (right; tauto); destruct (Nat.eq_dec k n); destruct (complete (i_meta i)); intuition congruence. }
    - destruct (F D X) as (Y & Z0). pose proof (U [] o l eq_refl X) as W. cbn in W. rewrite W in Y, Z0. auto.
    - exact (F' D X). }
  destruct N as (N & T). destruct (IH _ i1 G1 H1 N) as (i2 & H2 & V2 & P2 & T2 & M2).
  - intros a x b -> X. rewrite P, D1, <- (holds_app (i_path i) [o] a). apply (U (o :: a) x b eq_refl). now rewrite <- T.
  - exists i2. rewrite M in M2. split; [exact H2|]. split; [exact V2|]. split; [congruence|]. split; [congruence|exact M2].
Qed.
Lemma loads_opened y k i f : lgood y -> nth_error (z_objs y) k = Some i -> version i = Some f -> loads y k f (i_meta i) (i_method i).
Proof.
  intros G Hk D. unfold loads. cbn [lstep]. rewrite Hk. split; [reflexivity|]. intros kw.
  pose proof (finalize_ok (z_disk y) i kw (G k i Hk)) as R. cbn zeta in R. unfold found in R. rewrite D in R. destruct R as (i' & -> & _). reflexivity.
Qed.
Lemma fresh_load l p m g : nth_error (z_objs (run (l ++ [LNew p m g]))) (count l) = Some (new_load p m g).
Proof. unfold count. rewrite lrun_app. cbn. rewrite nth_error_app2, Nat.sub_diag by lia. reflexivity. Qed.

(* With GDAL: once the file was looked into, by prepare() with something to look up or by
   finalize(), the image reports the metadata of those contents and reads those contents,
   whatever happens to the file. *)
Theorem C139_same_version_partial before p m given mid u more f :
  let i := count before in
  (forall a x b, mid = (a ++ x :: b)%list -> touches given x i -> holds p (before ++ [LNew p m given] ++ a) None = None) ->
  touches given u i -> holds p (before ++ [LNew p m given] ++ mid) None = Some f ->
  let l := (before ++ [LNew p m given] ++ mid ++ u :: more)%list in
  loads (run l) i f (load_metadata (file_says f) given) (nodata_after i m (mid ++ u :: more)).
Proof.
  cbn zeta. intros N U C. rewrite app_assoc in *. set (y := run (before ++ [LNew p m given])).
  destruct (lrun_unopened y mid _ _ (run_good' _) (fresh_load before p m given) eq_refl) as (i1 & H1 & V1 & P1 & T1 & M1).
  { intros a x b E X. unfold y. rewrite run_disk', <- holds_app. rewrite <- app_assoc. exact (N a x b E X). }
  cbn in P1, T1, M1. destruct (lstep_objects (runs y mid) u (proj1 (lrun_good y mid (run_good' _)))) as (G2 & B & _).
  destruct (B _ i1 H1) as (i2 & H2 & P2 & M2 & _ & _ & F & _). rewrite T1 in F. destruct (F V1 U) as (V2 & T2).
  rewrite P1 in V2, T2. unfold y in V2, T2. rewrite <- lrun_app, run_disk', C in V2, T2.
  destruct (lrun_opened _ more _ i2 f G2 H2 V2) as (i3 & H3 & V3 & T3 & M3).
  assert (E : runs (fst (step (runs y mid) u)) more = run ((before ++ [LNew p m given]) ++ mid ++ u :: more)).
  { rewrite lrun_app. fold y. rewrite lrun_app. reflexivity. }
  rewrite E in H3. pose proof (loads_opened _ _ _ _ (run_good' _) H3 V3) as K. rewrite T3, T2 in K. rewrite M3, M2, M1 in K.
  replace (nodata_after (count before) m (mid ++ u :: more)) with (nodata_after (count before) (nodata_after (count before) (nodata_after (count before) m mid) [u]) more); [exact K|].
  unfold nodata_after. rewrite fold_left_app. reflexivity.
Qed.
End P.
Print Assumptions C139_same_version_partial.

(* So the array has the reported size, if none was given. *)
Theorem C139_size_partial {V} (veq : V -> V -> bool) (promote : V -> V) fast upstream file_shape imread before p m c n mid u more (f : gfile V) kw :
  let given := mkM None c n in
  let i := count veq promote fast upstream file_shape imread before in
  (forall a x b, mid = (a ++ x :: b)%list -> touches given x i -> holds p (before ++ [LNew p m given] ++ a) None = None) ->
  touches given u i -> holds p (before ++ [LNew p m given] ++ mid) None = Some f ->
  let y := lrun veq promote fast upstream true file_shape imread lstart (before ++ [LNew p m given] ++ mid ++ u :: more) in
  0 < g_h f 0 -> 0 < g_w f 0 -> 0 < g_c f -> 0 <= g_count f ->
  In (match kw with None => nodata_after i m (mid ++ u :: more) | Some m' => m' end) methods ->
  exists r w h nc nov,
    snd (lstep veq promote fast upstream true file_shape imread y (LFinalize i kw)) = LArray (Ok r) /\
    snd (lstep veq promote fast upstream true file_shape imread y (LMeta i)) = LIs (mkM (Some (Some w, Some h)) (Some nc) (Some nov)) /\
    r_w r = w /\ r_h r = h /\ (c = None -> r_c r = nc) /\ nov = g_count f.
Proof.
  cbn zeta. intros N U C Hh Hw Hc Hn Hm.
  destruct (C139_same_version_partial veq promote fast upstream file_shape imread before p m (mkM None c n) mid u more f N U C) as (A & B).
  specialize (B kw). cbn zeta in B. rewrite B, A. set (m' := match kw with None => _ | Some m' => m' end) in *.
  assert (FS : forall D, 0 < D -> List.length (selects full D) = Z.to_nat D).
  { intros D HD. cbn [selects full]. unfold py_slice. rewrite zseq_length. cbn. rewrite Z.sub_0_r, Nat2Z.id, firstn_all2; rewrite zseq_length; lia. }
  assert (FN : forall D, 0 < D -> selects full D <> []).
  { intros D HD E. pose proof (FS D HD) as X. rewrite E in X. cbn in X. lia. }
  assert (G : getitem veq promote fast (upstream f 0 m' [full]) (mkL f 0 m') [full] =
    Ok (mkR (Z.of_nat (List.length (selects full (g_c f))) =? 1) (Z.of_nat (List.length (selects full (g_h f 0)))) (Z.of_nat (List.length (selects full (g_w f 0)))) (Z.of_nat (List.length (selects full (g_c f))))
          (map (fun y => map (fun x => map (fun b => shown veq promote m' (g_nodata f 0 b) (g_pix f 0 y x b)) (selects full (g_c f))) (selects full (g_w f 0))) (selects full (g_h f 0))))).
  { apply (getitem_ok veq promote fast (upstream f 0 m' [full]) (mkL f 0 m') [full] full full full); cbn [l_file l_overview l_method]; try assumption; try lia; try exact I; try (apply FN; assumption).
    - unfold level_ok. cbn. lia.
    - left. split; [intros [X|[]]; discriminate|]. now exists 2%nat. }
  rewrite G. eexists _, (g_w f 0), (g_h f 0), (match c with Some k => k | None => g_c f end), (g_count f). split; [reflexivity|].
  split; [unfold load_metadata; cbn; destruct c; reflexivity|]. cbn [r_w r_h r_c]. rewrite !FS by assumption. rewrite !Z2Nat.id by lia.
  split; [reflexivity|]. split; [reflexivity|]. split; [intros ->; reflexivity|reflexivity].
Qed.
Print Assumptions C139_size_partial.

(* In full the claim also covers the other reader, which opens the file twice. *)
Definition reader_shape (f : gfile Z) : Z * Z * option Z := (g_h f 0, g_w f 0, Some (g_c f)).
Definition whole (f : gfile Z) : rarr Z :=
  mkR false (g_h f 0) (g_w f 0) (g_c f)
    (map (fun y => map (fun x => map (fun b => SVal (g_pix f 0 y x b)) (zseq (Z.to_nat (g_c f)))) (zseq (Z.to_nat (g_w f 0)))) (zseq (Z.to_nat (g_h f 0)))).
Definition some_file (h v : Z) : gfile Z := mkG (fun _ => h) (fun _ => 2) 1 (fun _ _ _ _ => v) (fun _ _ => None) 1 (fun _ => true).
Definition no_up : gfile Z -> Z -> option string -> list idx -> result (rarr Z) := fun _ _ _ _ => Err OtherError.

Theorem C139_refuted :
  ~ (forall gdal (l : list (lop Z)) p m mid kw w h c n r,
       let stp := lstep Z.eqb (fun v => v) true no_up gdal reader_shape whole in
       let run := lrun Z.eqb (fun v => v) true no_up gdal reader_shape whole lstart in
       let i := List.length (z_objs (run l)) in
       let y := run (l ++ [LNew p m (mkM None None None)] ++ mid)%list in
       snd (stp y (LMeta i)) = LIs (mkM (Some (Some w, Some h)) c n) ->
       snd (stp y (LFinalize i kw)) = LArray (Ok r) -> r_w r = w /\ r_h r = h).
Proof.
  intros X.
  destruct (X false [LWrite "a"%string (some_file 3 5)] "a"%string None [LPrepare 0; LWrite "a"%string (some_file 4 6)] None 2 3 (Some 1) (Some 0) (whole (some_file 4 6)) eq_refl eq_refl) as (_ & Y).
  vm_compute in Y. discriminate.
Qed.
Print Assumptions C139_refuted.

(* prepared when there is no file, then with one; the file is replaced and removed later *)
Example C139_case :
  let hist := [LNew "a" None (mkM None None None); LPrepare 0; LWrite "a" (some_file 3 5); LPrepare 0;
               LWrite "a" (some_file 4 6); LMeta 0; LFinalize 0 None; LRemove "a"; LFinalize 0 (Some (Some "float"))]%string in
  let y := lrun Z.eqb (fun v => v) true no_up true reader_shape whole lstart hist in
  snd (lstep Z.eqb (fun v => v) true no_up true reader_shape whole y (LMeta 0)) = LIs (mkM (Some (Some 2, Some 3)) (Some 1) (Some 1)) /\
  snd (lstep Z.eqb (fun v => v) true no_up true reader_shape whole y (LFinalize 0 None)) =
    LArray (Ok (mkR true 3 2 1 [[[SVal 5]; [SVal 5]]; [[SVal 5]; [SVal 5]]; [[SVal 5]; [SVal 5]]])) /\
  (forall a x b, [LPrepare 0; LWrite "a" (some_file 3 5)]%string = (a ++ x :: b)%list -> touches (mkM None None None) x 0 ->
     holds "a"%string ([] ++ [LNew "a"%string None (mkM None None None)] ++ a) None = None) /\
  touches (V:=Z) (mkM None None None) (LPrepare 0) 0.
Proof.
  cbn zeta. split; [vm_compute; reflexivity|]. split; [vm_compute; reflexivity|]. split; [|split; reflexivity].
  intros [|? [|? a]] x b E U; cbn in E; inversion E; subst; try reflexivity. destruct a; discriminate.
Qed.
