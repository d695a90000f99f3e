(* Exact results behind four partial properties of lazily indexed files and of
   shape merging: which merged extents lose a zero, when a result has two axes,
   what the shape of a missing overview is, and what an empty Ellipsis does. *)
From Verif Require Import Py PyProofs LazyModel LazySpec LazyProofs LazyProps.
From Coq Require Import ZifyBool Permutation.
Local Open Scope Z_scope.

(** * C69: shape merging, with zero extents *)

(** The last shape that was given at all has extent zero along axis i. *)
Definition last_zero (shapes : list (option (list (option Z)))) (i : nat) : Prop :=
  exists pre s n, shapes = (pre ++ Some s :: repeat None n)%list /\ nth_error s i = Some (Some 0).

Lemma last_zero_none shapes i : last_zero (shapes ++ [None]) i <-> last_zero shapes i.
Proof.
  split.
  - intros (pre & s & n & E & H). destruct n as [|n].
    + apply app_inj_tail in E as [_ E]. discriminate E.
    + exists pre, s, n. split; [|exact H]. replace (S n) with (n + 1)%nat in E by lia. rewrite repeat_app in E. cbn [repeat] in E.
      rewrite app_comm_cons, app_assoc in E. now apply app_inj_tail in E as [E _].
  - intros (pre & s & n & -> & H). exists pre, s, (n + 1)%nat. split; [|exact H]. rewrite repeat_app, <- app_assoc. reflexivity.
Qed.

Lemma last_zero_some shapes s i : last_zero (shapes ++ [Some s]) i <-> nth_error s i = Some (Some 0).
Proof.
  split.
  - intros (pre & s' & n & E & H). destruct n as [|n].
    + apply app_inj_tail in E as [_ E]. now injection E as ->.
    + exfalso. replace (S n) with (n + 1)%nat in E by lia. rewrite repeat_app in E. cbn [repeat] in E.
      rewrite app_comm_cons, app_assoc in E. apply app_inj_tail in E as [_ E]. discriminate E.
  - intros H. exists shapes, s, O. now split.
Qed.

(** With extents of at least zero, an axis is missing exactly when no shape has
    it; a positive extent always wins; and if every known extent is zero, the zero
    is kept exactly when the last given shape has it. *)
Theorem C69_exact shapes i : (forall z, extent shapes i z -> 0 <= z) ->
  match nth_error (largest_shape shapes) i with
  | None => ~ has_axis shapes i
  | Some (Some m) => extent shapes i m /\ (forall z, extent shapes i z -> z <= m) /\ (m = 0 -> last_zero shapes i)
  | Some None => has_axis shapes i /\ (forall z, extent shapes i z -> z = 0) /\ ~ last_zero shapes i
  end.
Proof.
  unfold largest_shape. induction shapes as [|sh shapes IH] using rev_ind; intros Hz.
  - cbn. destruct i; cbn; intros (s & [] & _).
  - rewrite fold_left_app. cbn [fold_left].
    assert (Hz' : forall z, extent shapes i z -> 0 <= z) by (intros z H; apply Hz; apply extent_app; now left).
    specialize (IH Hz'). set (L := fold_left _ shapes []) in *.
    assert (G : forall z, extent shapes i z -> has_axis shapes i).
    { intros z (s & A & B). exists s. split; [exact A|]. apply nth_error_Some. congruence. }
    destruct sh as [s|].
    + rewrite zip_longest_nth.
      assert (Hs : forall z, nth_error s i = Some (Some z) -> 0 <= z).
      { intros z E. apply (Hz z). apply extent_app. right. eauto. }
      assert (Hx : forall z, extent (shapes ++ [Some s]) i z <-> extent shapes i z \/ nth_error s i = Some (Some z)).
      { intros z. rewrite extent_app. split; intros [H|H]; auto; [destruct H as (s' & [= <-] & H); auto|right; eauto]. }
      assert (Ha : has_axis (shapes ++ [Some s]) i <-> has_axis shapes i \/ nth_error s i <> None).
      { rewrite has_axis_app, nth_error_Some. split; intros [H|H]; auto; [destruct H as (s' & [= <-] & H); auto|right; eauto]. }
      assert (Hl := last_zero_some shapes s i).
      destruct (nth_error L i) as [[a|]|] eqn:EL, (nth_error s i) as [[b|]|] eqn:Es; cbn [nonemax py_or] in *.
      * destruct IH as (I1 & I2 & I3). pose proof (Hz' _ I1). pose proof (Hs _ eq_refl). repeat split.
        { rewrite Hx. destruct (Z.max_spec a b) as [[_ ->]|[_ ->]]; auto. }
        { intros z Hz0. apply Hx in Hz0 as [H1|[= <-]]; [apply I2 in H1|]; lia. }
        { intros E. apply Hl. repeat f_equal. lia. }
      * destruct IH as (I1 & I2 & I3). pose proof (Hz' _ I1). destruct (Z.eqb_spec a 0) as [->|Na].
        { split; [apply Ha; right; discriminate|]. split; [|rewrite Hl; discriminate].
          intros z Hz0. apply Hx in Hz0 as [H1|H1]; [|discriminate]. specialize (I2 _ H1). specialize (Hz' _ H1). lia. }
        { split; [apply Hx; auto|]. split; [|intros; contradiction]. intros z Hz0. apply Hx in Hz0 as [H1|H1]; [now apply I2|discriminate]. }
      * destruct IH as (I1 & I2 & I3). pose proof (Hz' _ I1). destruct (Z.eqb_spec a 0) as [->|Na].
        { split; [apply Ha; left; now apply (G 0)|]. split; [|rewrite Hl; discriminate].
          intros z Hz0. apply Hx in Hz0 as [H1|H1]; [|discriminate]. specialize (I2 _ H1). specialize (Hz' _ H1). lia. }
        { split; [apply Hx; auto|]. split; [|intros; contradiction]. intros z Hz0. apply Hx in Hz0 as [H1|H1]; [now apply I2|discriminate]. }
      * destruct IH as (I1 & I2 & I3). pose proof (Hs _ eq_refl). split; [apply Hx; auto|]. split; [|intros ->; now apply Hl].
        intros z Hz0. apply Hx in Hz0 as [H1|[= <-]]; [apply I2 in H1|]; lia.
      * destruct IH as (I1 & I2 & I3). split; [apply Ha; auto|]. split; [|rewrite Hl; discriminate].
        intros z Hz0. apply Hx in Hz0 as [H1|H1]; [now apply I2 in H1|discriminate].
      * destruct IH as (I1 & I2 & I3). split; [apply Ha; auto|]. split; [|rewrite Hl; discriminate].
        intros z Hz0. apply Hx in Hz0 as [H1|H1]; [now apply I2 in H1|discriminate].
      * pose proof (Hs _ eq_refl). split; [apply Hx; auto|]. split; [|intros ->; now apply Hl].
        intros z Hz0. apply Hx in Hz0 as [H1|[= <-]]; [|lia]. destruct IH. now apply (G z).
      * split; [apply Ha; right; discriminate|]. split; [|rewrite Hl; discriminate].
        intros z Hz0. apply Hx in Hz0 as [H1|H1]; [|discriminate]. destruct IH. now apply (G z).
      * intros H. apply Ha in H as [H|H]; [contradiction|congruence].
    + assert (Hx : forall z, extent (shapes ++ [None]) i z <-> extent shapes i z).
      { intros z. rewrite extent_app. split; [intros [H|(s & H & _)]; [exact H|discriminate]|auto]. }
      assert (Ha : has_axis (shapes ++ [None]) i <-> has_axis shapes i).
      { rewrite has_axis_app. split; [intros [H|(s & H & _)]; [exact H|discriminate]|auto]. }
      assert (Hl := last_zero_none shapes i).
      destruct (nth_error L i) as [[a|]|].
      * destruct IH as (I1 & I2 & I3). repeat split; [now apply Hx| |intros E; apply Hl; auto]. intros z H. apply I2. now apply Hx.
      * destruct IH as (I1 & I2 & I3). repeat split; [now apply Ha| |now rewrite Hl]. intros z H. apply I2. now apply Hx.
      * now rewrite Ha.
Qed.
Print Assumptions C69_exact.

(** A zero survives before an unknown extent only if it comes last. *)
Example C69_exact_case :
  largest_shape [Some [Some 0; Some 0; Some 0]; Some [None; Some 2]; None] = [None; Some 2; None] /\
  largest_shape [Some [None; Some 2]; Some [Some 0; Some 0; Some 0]; None] = [Some 0; Some 2; Some 0] /\
  last_zero [Some [None; Some 2]; Some [Some 0; Some 0; Some 0]; None] 0.
Proof.
  split; [reflexivity|]. split; [reflexivity|].
  exists [Some [None; Some 2]], [Some 0; Some 0; Some 0], 1%nat. split; reflexivity.
Qed.

(** * C82: two axes exactly when one band is selected *)

Theorem C82_exact {V} (veq : V -> V -> bool) (promote : V -> V) fast upstream (s : lazy V) index iy ix ic :
  let f := l_file s in let o := l_overview s in
  level_ok s -> (0 < o -> fast = true -> g_ds f o = true) ->
  0 <= g_h f o -> 0 <= g_w f o -> 0 <= g_c f -> In (l_method s) methods ->
  means 1 index iy ix ic ->
  window_entry iy (g_h f o) -> window_entry ix (g_w f o) -> band_entry ic (g_c f) ->
  selects iy (g_h f o) <> [] -> selects ix (g_w f o) <> [] -> selects ic (g_c f) <> [] ->
  exists r, getitem veq promote fast upstream s index = Ok r /\
    (r_2d r = true <-> List.length (selects ic (g_c f)) = 1%nat).
Proof.
  intros f o Hl Hd Hh Hw HC Hm Hmeans Hy Hx Hc Sy Sx Sb.
  eexists. split; [apply getitem_ok with (iy := iy) (ix := ix) (ic := ic); assumption|].
  cbn [r_2d]. fold f. lia.
Qed.
Print Assumptions C82_exact.

Example C82_exact_case :
  rmap r_2d (getitem Z.eqb (fun v => v) true up (open (ex_file true) None (Some 1)) [full; full; IList [1; 0]]) = Ok false /\
  rmap r_2d (getitem Z.eqb (fun v => v) true up (open (ex_file true) None (Some 1)) [full; full; IList [1]]) = Ok true.
Proof. split; reflexivity. Qed.

(** * C84: the shape at a level a file does not have *)

(** Exactly the levels above zero of a file without overviews have a shape although
    they cannot be read, and it is the shape of the whole image. *)
Theorem C84_exact {V} (s : lazy V) : 0 <= g_count (l_file s) -> ~ level_ok s ->
  let f := l_file s in
  match shape s with
  | Ok sh => 0 < l_overview s /\ g_count f = 0 /\ sh = (g_h f 0, g_w f 0, g_c f)
  | Err ValueError => 0 < g_count f < l_overview s
  | Err e => e = AttributeError /\ l_overview s < 0
  end.
Proof.
  intros Hc Hl f. unfold level_ok in Hl. fold f in Hl, Hc. unfold shape. fold f.
  destruct (Z.eqb_spec (l_overview s) 0) as [E|N]; [lia|]. cbn [negb].
  destruct (Z.eqb_spec (Z.min (l_overview s) (g_count f)) 0) as [E|N']; cbn [negb].
  - cbn [bind]. repeat split; lia.
  - destruct (Z.eqb_spec (l_overview s - Z.min (l_overview s) (g_count f)) 0) as [E|N'']; cbn [negb].
    + destruct (Z.ltb_spec (Z.min (l_overview s) (g_count f)) 0); cbn [bind]; [|lia]. split; [reflexivity|lia].
    + cbn [bind]. lia.
Qed.
Print Assumptions C84_exact.

Example C84_exact_case :
  shape (mkL (mkG (fun l => if l =? 0 then 4 else 2) (fun l => if l =? 0 then 6 else 3) 2 (fun _ _ _ _ => 0) (fun _ _ => None) 0 (fun _ => true)) 3 None) = Ok (4, 6, 2) /\
  shape (mkL (ex_file true) 3 None) = Err ValueError /\
  shape (mkL (ex_file true) (-1) None) = Err AttributeError.
Proof. repeat split. Qed.

(** * C85: an Ellipsis that stands for no axis *)

(** Such an Ellipsis is ignored when it comes last, and refused anywhere else. *)
Theorem C85_exact {V} (veq : V -> V -> bool) (promote : V -> V) fast upstream (s : lazy V) pre post :
  ~ In IEllipsis (pre ++ post) -> List.length (pre ++ post) = 3%nat ->
  (post = [] -> getitem veq promote fast upstream s (pre ++ IEllipsis :: post) = getitem veq promote fast upstream s (pre ++ post)) /\
  (post <> [] -> exists e, getitem veq promote fast upstream s (pre ++ IEllipsis :: post) = Err e).
Proof.
  intros Hn Hlen.
  assert (E1 : expand_index (pre ++ IEllipsis :: post) = Ok (pre ++ IEllipsis :: post)).
  { unfold expand_index. rewrite filter_app. cbn [filter is_ellipsis].
    rewrite !filter_ellipsis by (intros X; apply Hn; apply in_or_app; auto). cbn [app List.length].
    rewrite app_length in Hlen. destruct (Z.ltb_spec 0 (1 + 3 - Z.of_nat (List.length (pre ++ IEllipsis :: post)))) as [X|X]; [|reflexivity].
    rewrite app_length in X. cbn [List.length] in X. lia. }
  assert (E2 : expand_index (pre ++ post) = Ok (pre ++ post)).
  { unfold expand_index. rewrite filter_ellipsis by exact Hn. cbn [List.length].
    destruct (Z.ltb_spec (Z.of_nat (List.length (pre ++ post))) 3) as [X|X]; [|reflexivity]. lia. }
  unfold getitem. destruct (shape s) as [[[h w] C]|e0]; cbn [bind]; [|split; [reflexivity|intros _; now exists e0]].
  rewrite E1, E2. cbn [bind]. split.
  - intros ->. rewrite app_nil_r in *. do 3 (destruct pre as [|? pre]; [discriminate Hlen|]). destruct pre; [|discriminate Hlen]. reflexivity.
  - intros Hp.
    assert (R : exists e, request (pre ++ IEllipsis :: post) h w C = Err e).
    { do 3 (destruct pre as [|? pre]; [unfold request; cbn; change (Pos.to_nat 1) with 1%nat; change (Pos.to_nat 2) with 2%nat; cbn; repeat match goal with |- context [rectify ?a ?b] => destruct (rectify a b); cbn end; eexists; reflexivity|]).
      destruct post; [contradiction|]. cbn [app List.length] in Hlen. rewrite app_length in Hlen. cbn [List.length] in Hlen. lia. }
    destruct R as (e & ->). exists e. reflexivity.
Qed.
Print Assumptions C85_exact.

Example C85_exact_case :
  getitem Z.eqb (fun v => v) true up (open (ex_file true) None None) [IInt 1; IInt 2; IInt 1; IEllipsis]
  = getitem Z.eqb (fun v => v) true up (open (ex_file true) None None) [IInt 1; IInt 2; IInt 1] /\
  getitem Z.eqb (fun v => v) true up (open (ex_file true) None None) [IInt 1; IInt 2; IInt 1] = Ok (mkR true 1 1 1 [[[SVal 121]]]) /\
  getitem Z.eqb (fun v => v) true up (open (ex_file true) None None) [IInt 1; IInt 2; IEllipsis; IInt 1] = Err TypeError.
Proof. repeat split. Qed.
