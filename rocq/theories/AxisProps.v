(* C150: which finalized images of files have a band axis. *)
From Verif Require Import Py PyProofs GeomModel LazyModel LazySpec LazyProofs LazyProps.
From Verif Require Import GraphModel GraphSpec GraphSize FinalModel FinalSpec FinalProofs GraphProps LoadModel LoadSpec LoadProofs LoadReads LoadOver LoadProps.
From Coq Require Import ZifyBool.
Local Open Scope Z_scope.

(* nothing is done to one band: a file of one band or an H x W array, possibly
   as the only part of a concatenation *)
Fixpoint bare {V} (E : env V) (t : node) : Prop :=
  match t with
  | Leaf l =>
      l_kind l = Data /\
      match e_disk E (l_id l) with Some (f, _) => g_c f = 1 | None => w_flat (e_world E) (l_id l) = true end
  | Concat [p] _ => bare E p
  | _ => False
  end.

Section Axis.
Context {V : Type} (E : env V).

Lemma fetch_axis id (s : lazy V) a rs : ready E s -> fetch E id s [full] = Ok (a, rs) -> (a_c a = None <-> g_c (l_file s) = 1).
Proof.
  intros Hr. pose proof Hr as (Hl & Hds & Hh & Hw & HC & Hm). unfold fetch.
  rewrite (getitem_ok (e_veq E) (e_promote E) (e_fast E) _ s [full] full full full Hl Hds); try exact I; try assumption; try lia.
  - cbn [bind]. rewrite (selects_full (g_c (l_file s))), span_length, Z2Nat.id by lia. intros H.
    apply (f_equal (rmap (fun p => a_c (fst p)))) in H. cbn [rmap fst to_array a_c r_2d r_c] in H. injection H as H. rewrite <- H.
    destruct (Z.eqb_spec (g_c (l_file s)) 1); split; congruence.
  - left. split; [intros [H|[]]; discriminate|]. exists 2%nat. reflexivity.
  - rewrite selects_full by lia. apply span_nonempty; lia.
  - rewrite selects_full by lia. apply span_nonempty; lia.
  - rewrite selects_full by lia. apply span_nonempty; lia.
Qed.

Lemma atleast3_axis {X} (a : array X) : a_c (atleast3 a) <> None.
Proof. unfold atleast3. destruct (a_c a) eqn:H; [now rewrite H|discriminate]. Qed.

Lemma cat2_axis {X} (a b x : array X) : cat2 a b = Ok x -> a_c x <> None.
Proof. unfold cat2. destruct (a_c a), (a_c b); try discriminate. destruct (_ && _)%bool; [|discriminate]. intros [= <-]. discriminate. Qed.

Lemma stack_axis {X} (l : list (array X)) x : List.length l <> 1%nat -> stack_bands l = Ok x -> a_c x <> None.
Proof.
  destruct l as [|a [|b l]]; cbn [stack_bands List.length]; [discriminate|lia|]. intros _ H. cbn [map cat_all] in H.
  apply bind_ok in H as (y & _ & H). now apply cat2_axis in H.
Qed.

Lemma nearest_axis {X} (W : FinalModel.world X) M d a x : nearest_array W M d a = Ok x -> a_c x <> None.
Proof.
  unfold nearest_array. destruct (negb _); [discriminate|]. destruct (_ && _)%bool.
  - destruct (_ || _)%bool; [discriminate|]. intros [= <-]. apply atleast3_axis.
  - intros H. apply bind_ok in H as (p & _ & [= <-]). apply atleast3_axis.
Qed.

Definition flat_final (f : final V) : Prop :=
  match f with Ref _ s => g_c (l_file s) = 1 /\ ready E s | Dense a => a_c a = None end.
Definition fine (f : final V) : Prop := match f with Ref _ s => ready E s | Dense _ => True end.

Lemma lfin_axis : forall t, no_overviews t -> files_ok E t -> forall f rs, lfin E t = Ok (f, rs) ->
  fine f /\ (bare E t <-> match f with Ref _ s => g_c (l_file s) = 1 | Dense a => a_c a = None end).
Proof.
  fix IH 1. intros [l|ps d|s ys xs ci d nm nc|s M d al|s q d|s k d] Ho Hf f rs H; cbn [lfin bare] in *.
  - cbn in Hf. destruct (l_kind l) eqn:Ek.
    + destruct (e_disk E (l_id l)) as [[fl m]|] eqn:Ed.
      * injection H as <- <-. unfold describes in Hf. rewrite Ed in Hf. destruct Hf as (_ & _ & H1 & H2 & H3 & H4 & H5).
        split; [apply file_ready; repeat split; assumption|]. cbn [open l_file]. tauto.
      * apply bind_ok in H as (a & H & [= <- <-]). split; [exact I|]. unfold finalize_leaf in H. rewrite Ek in H.
        destruct (l_nc l) as [n|]; [|discriminate]. destruct (l_dsize l) as [w h]. injection H as <-. cbn [a_c].
        destruct (w_flat (e_world E) (l_id l)); split; try congruence; [intros _; auto|intros [_ K]; discriminate].
    + assert (H' : (a <- finalize_leaf (e_world E) l;; Ok (Dense a, [])) = Ok (f, rs)) by exact H.
      apply bind_ok in H' as (a & G & [= <- <-]). split; [exact I|]. unfold finalize_leaf in G. rewrite Ek in G.
      destruct (l_nc l) as [n|]; [|discriminate]. destruct (l_dsize l) as [w h]. injection G as <-. cbn [a_c]. split; [intros [? _]|]; discriminate.
  - destruct ps as [|p [|p2 ps]].
    + discriminate.
    + cbn [map mapR] in H. apply bind_ok in H as (fs & H & G). destruct (lfin E p) as [[f1 r1]|] eqn:E1; [|discriminate].
      cbn in H. injection H as <-. injection G as <- <-. destruct Ho as [Ho _], Hf as [Hf _]. exact (IH p Ho Hf _ _ E1).
    + apply bind_ok in H as (fs & H & G). pose proof (mapR_length _ _ _ H) as L. rewrite map_length in L.
      destruct fs as [|f1 [|f2 fs]]; [discriminate..|].
      apply bind_ok in G as ([l rs1] & G & G2). apply bind_ok in G2 as (a & G2 & [= <- <-]). split; [exact I|]. cbn [unmask_array a_c].
      unfold force_all in G. apply bind_ok in G as (l0 & G & [= <- <-]). pose proof (mapR_length _ _ _ G) as L2.
      apply stack_axis in G2; [|rewrite map_length, L2; discriminate]. tauto.
  - apply bind_ok in H as ([f1 r1] & _ & H). apply bind_ok in H as ([a r2] & _ & [= <- <-]). split; [exact I|]. pose proof (atleast3_axis a). tauto.
  - apply bind_ok in H as ([f1 r1] & _ & H). apply bind_ok in H as ([a r2] & _ & H). apply bind_ok in H as (a' & H & [= <- <-]). split; [exact I|].
    destruct (al_nearest al); [|discriminate]. apply nearest_axis in H. tauto.
  - apply bind_ok in H as ([f1 r1] & _ & H). apply bind_ok in H as ([a r2] & _ & [= <- <-]). split; [exact I|].
    assert (K : a_c (dq_array (e_world E) q (atleast3 a)) = a_c (atleast3 a)) by (unfold dq_array; destruct q; reflexivity).
    rewrite K. pose proof (atleast3_axis a). tauto.
  - destruct Ho.
Qed.
End Axis.

(* the band axis is missing exactly when nothing is done to one band *)
Theorem C150_axis {V} (E : env V) t a rs : no_overviews t -> files_ok E t -> lfinalize E t = Ok (a, rs) ->
  (a_c a = None <-> bare E t).
Proof.
  intros Ho Hf H. unfold lfinalize in H. apply bind_ok in H as ([f r1] & H & G). apply bind_ok in G as ([a' r2] & G & [= <- _]).
  destruct (lfin_axis E t Ho Hf _ _ H) as (F & B). rewrite B. destruct f as [id s|b]; cbn [force] in G.
  - now apply (fetch_axis E id s _ r2).
  - injection G as <- _. tauto.
Qed.
Print Assumptions C150_axis.

(* otherwise the array has the shape the image says *)
Theorem C150_shape {V} (E : env V) t a rs :
  built t -> no_overviews t -> files_ok E t -> nonempty t -> no_masks E -> all_3d (in_memory E) t ->
  lfinalize E t = Ok (a, rs) ->
  exists n, dsize t = Some (a_w a, a_h a) /\ GraphModel.num_channels t = Some n /\
    ((bare E t /\ n = 1 /\ a_c a = None) \/ (~ bare E t /\ a_c a = Some n)).
Proof.
  intros Hb Ho Hf Hn Hk H3 H. pose proof (C150_axis E t a rs Ho Hf H) as HA.
  destruct (C31_shape_is_metadata (in_memory E) t Hb H3) as (b & n & Eb & D & N & C & _).
  pose proof (C95_lazy_same E t (proj1 Hb) Ho Hf Hn Hk) as S. rewrite H, Eb in S.
  rewrite (atleast3_id b n C) in S. destruct S as (S1 & S2 & S3 & _). rewrite atleast3_h in S1. rewrite atleast3_w in S2.
  exists n. split; [congruence|]. split; [exact N|]. rewrite C in S3. destruct (a_c a) as [m|] eqn:Ea.
  - right. rewrite <- HA. split; [discriminate|]. rewrite (atleast3_id a m Ea) in S3. congruence.
  - left. split; [now apply HA|]. split; [|reflexivity]. unfold atleast3 in S3. rewrite Ea in S3. cbn in S3. congruence.
Qed.
Print Assumptions C150_shape.

(* "finalize() returns an array with one plane per channel" is false of a file of
   one band *)
Definition one_file : gfile Z := mkG (fun _ => 4) (fun _ => 6) 1 (fun _ y x _ => 10 * y + x) (fun _ _ => None) 0 (fun _ => true).
Definition one_env : env Z :=
  Env Z.eqb (fun v => v) true (fun _ _ => Err OtherError) (fun _ _ => Err OtherError)
      (World (fun id r c b => SVal (1000 * id + 10 * r + c)) (fun _ => false) SNan SNan (fun _ v => v))
      (fun id => if id =? 1 then Some (one_file, None) else None).
Definition one_img : node := img 1 6 4 ["a"%string] None.
Definition one_cropped : node := the (mkCrop one_img (Some ((Some 1, Some 3), (Some 2, Some 5))) None).

Lemma one_hyps t : t = one_img \/ t = one_cropped ->
  built t /\ no_overviews t /\ files_ok one_env t /\ nonempty t /\ no_masks one_env /\ all_3d (in_memory one_env) t.
Proof.
  assert (M : no_masks one_env).
  { split; [intros id f m; cbn; destruct (id =? 1); congruence|]. cbn. repeat split; try reflexivity. intros q v H. exact H. }
  assert (L : made one_img) by (apply made_img; lia).
  intros [-> | ->]; (split; [split; [|vm_compute; auto]|]); try exact L.
  - split; [vm_compute; auto|]. split; [cbn; unfold describes; cbn; repeat split; try lia; left; reflexivity|].
    split; [cbn; repeat split; eexists _, _; (split; [reflexivity|cbn; lia])|]. split; [exact M|reflexivity].
  - apply (made_crop one_img (Some ((Some 1, Some 3), (Some 2, Some 5)))); [exact L|vm_compute; reflexivity].
  - split; [vm_compute; auto|]. split; [cbn; unfold describes; cbn; repeat split; try lia; left; reflexivity|].
    split; [cbn; repeat split; eexists _, _; (split; [reflexivity|cbn; lia])|]. split; [exact M|reflexivity].
Qed.

Theorem C150_axis_refuted :
  ~ (forall (E : env Z) t a rs n, built t -> no_overviews t -> files_ok E t -> nonempty t -> no_masks E -> all_3d (in_memory E) t ->
       lfinalize E t = Ok (a, rs) -> GraphModel.num_channels t = Some n -> a_c a = Some n).
Proof.
  intros H. destruct (one_hyps one_img (or_introl eq_refl)) as (H1 & H2 & H3 & H4 & H5 & H6).
  destruct (lfinalize one_env one_img) as [[a rs]|] eqn:El; [|vm_compute in El; discriminate].
  specialize (H one_env one_img a rs 1 H1 H2 H3 H4 H5 H6 El eq_refl).
  assert (X : rmap (fun p => a_c (fst p)) (lfinalize one_env one_img) = Ok None) by (vm_compute; reflexivity).
  rewrite El in X. cbn [rmap fst] in X. injection X as X. congruence.
Qed.
Print Assumptions C150_axis_refuted.

(* the crop of the same file has the axis *)
Example C150_case :
  rmap (fun p => (a_h (fst p), a_w (fst p), a_c (fst p))) (lfinalize one_env one_img) = Ok (4, 6, None) /\
  rmap (fun p => (a_h (fst p), a_w (fst p), a_c (fst p))) (lfinalize one_env one_cropped) = Ok (2, 3, Some 1).
Proof. split; vm_compute; reflexivity. Qed.
