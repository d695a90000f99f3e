(* C137: integer band indexes into lazily indexed files. *)
From Verif Require Import Py PyProofs LazyModel LazySpec LazyProofs LazyProps.
Local Open Scope Z_scope.

(* The last band, asked for by -1, is missing from the result; a band the file does not
   have is no error. *)
Theorem C137_integer_bands_refuted :
  let s := open (ex_file true) None None in
  (exists r, getitem Z.eqb (fun v => v) true up s [full; full; IInt (-1)] = Ok r /\ r_c r = 0) /\
  (exists r, getitem Z.eqb (fun v => v) true up s [full; full; IInt 7] = Ok r /\ r_c r = 0) /\
  (exists r, getitem Z.eqb (fun v => v) true up s [full; full; IList [-1]] = Ok r /\ r_c r = 1).
Proof. cbn zeta. split; [|split]; eexists; split; vm_compute; reflexivity. Qed.
Print Assumptions C137_integer_bands_refuted.

Lemma same_bands {V} (veq : V -> V -> bool) promote fast upstream (s : lazy V) iy ix c c' :
  iy <> IEllipsis -> ix <> IEllipsis -> c <> IEllipsis -> c' <> IEllipsis ->
  (forall p p', rectify c (g_c (l_file s)) = Ok p -> rectify c' (g_c (l_file s)) = Ok p' -> band_indices p (g_c (l_file s)) = band_indices p' (g_c (l_file s))) ->
  (exists p, rectify c (g_c (l_file s)) = Ok p) -> (exists p, rectify c' (g_c (l_file s)) = Ok p) ->
  getitem veq promote fast upstream s [iy; ix; c] = getitem veq promote fast upstream s [iy; ix; c'].
Proof.
  intros Hy Hx Hc Hc' HB (p & Hp) (p' & Hp'). unfold getitem. destruct (shape s) as [[[h w] C]|e] eqn:Es; [|reflexivity]. cbn [bind].
  assert (EC : C = g_c (l_file s)).
  { unfold shape in Es. apply bind_ok in Es as (lvl & _ & [= _ _ <-]). reflexivity. }
  assert (X : forall i, i <> IEllipsis -> expand_index [iy; ix; i] = Ok [iy; ix; i]).
  { intros i Hi. destruct iy, ix, i; try congruence; reflexivity. }
  rewrite !X by assumption. cbn [bind].
  assert (R : request [iy; ix; c] h w C = request [iy; ix; c'] h w C).
  { unfold request. cbn [py_get]. change (py_get [iy; ix; c] 0) with (Ok iy). change (py_get [iy; ix; c'] 0) with (Ok iy).
    change (py_get [iy; ix; c] 1) with (Ok ix). change (py_get [iy; ix; c'] 1) with (Ok ix).
    change (py_get [iy; ix; c] 2) with (Ok c). change (py_get [iy; ix; c'] 2) with (Ok c'). cbn [bind].
    destruct (rectify iy h); [|reflexivity]. cbn [bind]. destruct (rectify ix w); [|reflexivity]. cbn [bind].
    subst C. rewrite Hp, Hp'. cbn [bind]. now rewrite (HB p p' Hp Hp'). }
  now rewrite R.
Qed.

Lemma span_one a : span a 1 = [a].
Proof. unfold span. change (zseq (Z.to_nat 1)) with [0]. cbn [map]. f_equal. lia. Qed.
Lemma span_nil a n : n <= 0 -> span a n = [].
Proof. intros H. unfold span. now replace (Z.to_nat n) with O by lia. Qed.

(* what an integer selects from C bands: counted from the end from -2 on; -1 and bands that
   do not exist select none *)
Definition int_bands (c C : Z) : list Z :=
  if (0 <=? c) && (c <? C) then [c] else if (- C <=? c) && (c <? -1) then [C + c] else [].

Theorem C137_integer_bands_partial {V} (veq : V -> V -> bool) (promote : V -> V) fast upstream (s : lazy V) iy ix c :
  let f := l_file s in let o := l_overview s in
  level_ok s -> (0 < o -> fast = true -> g_ds f o = true) ->
  0 <= g_h f o -> 0 <= g_w f o -> 0 <= g_c f -> In (l_method s) methods ->
  window_entry iy (g_h f o) -> window_entry ix (g_w f o) ->
  let ys := selects iy (g_h f o) in let xs := selects ix (g_w f o) in let bs := int_bands c (g_c f) in
  ys <> [] -> xs <> [] -> (fast = true \/ bs <> []) ->
  exists r, getitem veq promote fast upstream s [iy; ix; IInt c] = Ok r /\
    r_h r = Z.of_nat (List.length ys) /\ r_w r = Z.of_nat (List.length xs) /\ r_c r = Z.of_nat (List.length bs) /\
    r_data r = map (fun y => map (fun x => map (fun b =>
                 shown veq promote (l_method s) (g_nodata f o b) (g_pix f o y x b)) bs) xs) ys.
Proof.
  intros f o Hl Hd Hh Hw Hc Hm Wy Wx ys xs bs Ny Nx Hf.
  assert (Iy : iy <> IEllipsis) by (intros ->; destruct Wy). assert (Ix : ix <> IEllipsis) by (intros ->; destruct Wx).
  assert (E : getitem veq promote fast upstream s [iy; ix; IInt c] = getitem veq promote fast upstream s [iy; ix; IList bs]).
  { apply same_bands; try assumption; try discriminate; try (eexists; reflexivity).
    intros p p' [= <-] [= <-]. fold f. unfold bs, int_bands, band_indices, slice_bound.
    destruct (Z.leb_spec 0 c), (Z.ltb_spec c (g_c f)), (Z.leb_spec (- g_c f) c), (Z.ltb_spec c (-1)); cbn [andb]; try lia;
      repeat match goal with |- context [?a <? ?b] => destruct (Z.ltb_spec a b); try lia end;
      first [rewrite span_nil by lia; reflexivity | match goal with |- span ?a ?n = [?c] => replace n with 1 by lia; replace a with c by lia; apply span_one end]. }
  assert (Hb : Forall (fun i => - g_c f <= i < g_c f) bs).
  { unfold bs, int_bands. destruct ((0 <=? c) && (c <? g_c f))%bool eqn:E1; [|destruct ((- g_c f <=? c) && (c <? -1))%bool eqn:E2]; repeat constructor; lia. }
  assert (Hs : selects (IList bs) (g_c f) = bs).
  { cbn [selects]. unfold bs, int_bands. destruct ((0 <=? c) && (c <? g_c f))%bool eqn:E1; [|destruct ((- g_c f <=? c) && (c <? -1))%bool eqn:E2]; cbn [map];
      try reflexivity; f_equal; rewrite (proj2 (Z.ltb_ge _ _)) by lia; reflexivity. }
  assert (M : means 1 [iy; ix; IList bs] iy ix (IList bs)).
  { left. split; [cbn; intuition congruence|]. now exists O. }
  rewrite E. destruct bs as [|b bs'] eqn:Eb.
  - destruct Hf as [-> |Hf]; [|congruence].
    destruct (C63_no_bands veq promote upstream s [iy; ix; IList []] iy ix (IList [])) as (r & Hr & P); try assumption.
    exists r. split; [exact Hr|]. revert P. cbn. fold o f ys xs. intuition.
  - rewrite <- Eb in *. destruct (C63_gdal veq promote fast upstream s [iy; ix; IList bs] iy ix (IList bs)) as (r & Hr & P); try assumption.
    + fold f. rewrite Hs. subst bs. congruence.
    + exists r. split; [exact Hr|]. revert P. fold o f. rewrite Hs. auto.
Qed.
Print Assumptions C137_integer_bands_partial.
Example C137_case :
  getitem Z.eqb (fun v => v) true up (open (ex_file true) None None) [IInt 1; IInt 2; IInt (-2)] = Ok (mkR true 1 1 1 [[[SVal 120]]]) /\
  int_bands (-2) 2 = [0] /\ int_bands (-1) 2 = [] /\ int_bands 1 2 = [1] /\ int_bands 2 2 = [].
Proof. repeat split; vm_compute; reflexivity. Qed.
