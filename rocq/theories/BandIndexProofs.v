(* Proofs about band selections. *)
From Verif Require Import Py PyProofs GeomModel GeomProofs GraphModel GraphSpec FinalModel FinalSpec FinalProofs
  TakeModel TakeSpec CropProofs BandIndexModel BandIndexSpec.
From Coq Require Import Lia.
Local Open Scope Z_scope.

Lemma py_get_at {A} (l : list A) i :
  py_get l i = if ((- Z.of_nat (List.length l) <=? i) && (i <? Z.of_nat (List.length l)))%bool
               then match nth_error l (Z.to_nat (band_at (Z.of_nat (List.length l)) i)) with
                    | Some x => Ok x | None => Err IndexError end
               else Err IndexError.
Proof.
  unfold py_get, band_at. cbv zeta. set (n := Z.of_nat (List.length l)).
  set (j := if i <? 0 then i + n else i).
  destruct (Z.leb_spec (- n) i); cbn [andb].
  - destruct (Z.ltb_spec i n).
    + assert (0 <= j) by (unfold j; destruct (Z.ltb_spec i 0); lia). destruct (Z.ltb_spec j 0); [lia|]. reflexivity.
    + assert (j = i) as -> by (unfold j; destruct (Z.ltb_spec i 0); lia).
      destruct (Z.ltb_spec i 0); [reflexivity|]. destruct (nth_error l (Z.to_nat i)) eqn:E; [|reflexivity].
      assert (Z.to_nat i < List.length l)%nat by (apply nth_error_Some; congruence). unfold n in *. lia.
  - assert (j < 0) by (unfold j; destruct (Z.ltb_spec i 0); lia). destruct (Z.ltb_spec j 0); [reflexivity|lia].
Qed.

Lemma band_at_range n i : - n <= i < n -> 0 <= band_at n i < n.
Proof. unfold band_at. destruct (Z.ltb_spec i 0); lia. Qed.

Lemma py_get_in {A} (l : list A) i : - Z.of_nat (List.length l) <= i < Z.of_nat (List.length l) ->
  exists x, py_get l i = Ok x /\ nth_error l (Z.to_nat (band_at (Z.of_nat (List.length l)) i)) = Some x.
Proof.
  intros H. rewrite py_get_at. pose proof (band_at_range _ _ H).
  destruct (Z.leb_spec (- Z.of_nat (List.length l)) i); [|lia]. destruct (Z.ltb_spec i (Z.of_nat (List.length l))); [|lia]. cbn [andb].
  destruct (nth_error l _) eqn:E; [eauto|]. apply nth_error_None in E. lia.
Qed.

Lemma py_get_out {A} (l : list A) i : ~ - Z.of_nat (List.length l) <= i < Z.of_nat (List.length l) -> py_get l i = Err IndexError.
Proof.
  intros H. rewrite py_get_at.
  destruct (Z.leb_spec (- Z.of_nat (List.length l)) i); [|reflexivity]. destruct (Z.ltb_spec i (Z.of_nat (List.length l))); [lia|]. reflexivity.
Qed.

Lemma np_index_in n i : - n <= i < n -> np_index n i = Ok (band_at n i).
Proof.
  intros H. unfold np_index, band_at. destruct (Z.leb_spec (- n) i); [|lia]. destruct (Z.ltb_spec i n); [|lia]. reflexivity.
Qed.

Lemma sliced_range n s p : 0 <= n -> In p (sliced s (upto n)) -> 0 <= p < n.
Proof.
  intros Hn H. unfold sliced, py_slice in H.
  assert (G : In p (upto n)).
  { rewrite <- (firstn_skipn (Z.to_nat match fst s with None => 0 | Some i => slice_bound (Z.of_nat (List.length (upto n))) i end) (upto n)).
    apply in_or_app. right.
    match type of H with In _ (firstn ?k ?m) => rewrite <- (firstn_skipn k m); apply in_or_app; left; exact H end. }
  unfold upto in G. apply zseq_In in G. lia.
Qed.

Lemma picked_range n b : 0 <= n -> in_range n b -> Forall (fun p => 0 <= p < n) (picked b n).
Proof.
  intros Hn H. destruct b as [l|s|k]; cbn in *.
  - induction H; cbn; constructor; auto using band_at_range.
  - apply Forall_forall. intros p Hp. eapply sliced_range; eauto.
  - constructor; auto using band_at_range.
Qed.

Lemma sliced_map {A B} (f : A -> B) s l : sliced s (map f l) = map f (sliced s l).
Proof. unfold sliced, py_slice. rewrite map_length, skipn_map, firstn_map. reflexivity. Qed.

(* the names a selection keeps *)
Lemma choose_ok {A} (l : list A) b : in_range (Z.of_nat (List.length l)) b ->
  exists l', choose l b = Ok l' /\ items (Some (picked b (Z.of_nat (List.length l)))) l l'.
Proof.
  intros H. destruct b as [is|[lo hi]|k]; cbn [choose picked items] in *.
  - induction H as [|i is Hi F IH]; cbn [mapR map]; [exists []; auto|].
    destruct (py_get_in l i Hi) as (x & -> & Hx). destruct IH as (l' & -> & F2). cbn. eauto.
  - exists (py_slice l lo hi). split; [reflexivity|]. cbn [items].
    assert (E : forall d, l = map (fun p => nth (Z.to_nat p) l d) (upto (Z.of_nat (List.length l)))).
    { intros d. apply (nth_ext _ _ d d); [rewrite map_length; unfold upto; rewrite zseq_length; lia|].
      intros k Hk. rewrite (nth_indep (map (fun p => nth (Z.to_nat p) l d) (upto (Z.of_nat (List.length l)))) d ((fun p => nth (Z.to_nat p) l d) 0)) by (rewrite map_length; unfold upto; rewrite zseq_length; lia).
      rewrite (map_nth (fun p => nth (Z.to_nat p) l d)). unfold upto, zseq. rewrite Nat2Z.id. change 0 with (Z.of_nat 0). rewrite (map_nth Z.of_nat), seq_nth by lia. rewrite Nat2Z.id. reflexivity. }
    destruct l as [|d l0]; [unfold sliced, py_slice, upto; cbn; rewrite ?skipn_nil, ?firstn_nil; constructor|].
    set (l := d :: l0) in *. change (py_slice l lo hi) with (sliced (lo, hi) l). rewrite (E d) at 2. rewrite sliced_map.
    assert (G : forall p, In p (sliced (lo, hi) (upto (Z.of_nat (List.length l)))) -> 0 <= p < Z.of_nat (List.length l)) by (intros; eapply sliced_range; eauto; lia).
    induction (sliced (lo, hi) (upto (Z.of_nat (List.length l)))) as [|p ps IH]; cbn [map]; constructor.
    + apply nth_error_nth'. specialize (G p (or_introl eq_refl)). lia.
    + apply IH. intros; apply G; now right.
  - destruct (py_get_in l k H) as (x & -> & Hx). cbn. eauto.
Qed.

Lemma choose_bad {A} (l : list A) b : ~ in_range (Z.of_nat (List.length l)) b -> choose l b = Err IndexError.
Proof.
  intros H. destruct b as [is|[lo hi]|k]; cbn [choose in_range] in *; [|exfalso; auto|now rewrite py_get_out].
  induction is as [|i is IH]; [exfalso; auto|]. cbn [mapR].
  destruct (Z_le_dec (- Z.of_nat (List.length l)) i) as [H1|H1]; [|rewrite py_get_out by lia; reflexivity].
  destruct (Z_lt_dec i (Z.of_nat (List.length l))) as [H2|H2]; [|rewrite py_get_out by lia; reflexivity].
  destruct (py_get_in l i (conj H1 H2)) as (x & -> & _). cbn [bind]. rewrite IH; [reflexivity|].
  intros F. apply H. constructor; auto.
Qed.

Lemma in_range_dec n b : in_range n b \/ ~ in_range n b.
Proof.
  destruct b as [l|s|k]; cbn; [|auto|lia].
  induction l as [|i l [IH|IH]]; [left; constructor| |right; intros F; inversion F; auto].
  assert (- n <= i < n \/ ~ - n <= i < n) as [H|H] by lia; [left; constructor; auto|right; intros F; inversion F; auto].
Qed.

Lemma items_length {A} ci (l l' : list A) : items (Some ci) l l' -> List.length l' = List.length ci.
Proof. cbn. induction 1; cbn; auto. Qed.

Definition kept (b : option bands) (n : Z) : list Z := match b with Some b => picked b n | None => upto n end.
Definition kept_ok (n : Z) (b : option bands) : Prop := match b with Some b => in_range n b | None => True end.

Lemma upto_at n k : 0 <= k < n -> nth (Z.to_nat k) (upto n) 0 = k.
Proof.
  intros H. unfold upto, zseq. change (nth (Z.to_nat k) (map Z.of_nat (seq 0 (Z.to_nat n))) (Z.of_nat 0) = k). rewrite map_nth, seq_nth by lia. lia.
Qed.

Lemma kept_range n b : 0 <= n -> kept_ok n b -> Forall (fun p => 0 <= p < n) (kept b n).
Proof.
  intros Hn H. destruct b; cbn in *; [now apply picked_range|].
  apply Forall_forall. intros p Hp. unfold upto in Hp. apply zseq_In in Hp. lia.
Qed.

Section Means.
Context {V : Type} (W : world V).

(* numpy shows the picked bands *)
Lemma index_bands_ok (a : array V) n (y x : ival) b : a_c a = Some n -> 0 <= n -> kept_ok n b ->
  0 <= fst y -> fst y <= snd y -> snd y <= a_h a -> 0 <= fst x -> fst x <= snd x -> snd x <= a_w a ->
  exists a', rmap atleast3 (index_bands a y x b) = Ok a' /\ a_h a' = iv_len y /\ a_w a' = iv_len x /\
    a_c a' = Some (Z.of_nat (List.length (kept b n))) /\
    forall r c k, 0 <= k < Z.of_nat (List.length (kept b n)) ->
      a_pix a' r c k = a_pix a (r + fst y) (c + fst x) (nth (Z.to_nat k) (kept b n) 0).
Proof.
  intros Hc Hn Hb Y0 Y1 Y2 X0 X1 X2. unfold index_bands. destruct b as [[l|[lo hi]|k]|]; cbn [kept kept_ok picked in_range] in *.
  - unfold index_array. rewrite !axis_slice_in by lia. rewrite Hc.
    assert (E : mapR (np_index n) l = Ok (map (band_at n) l)).
    { induction Hb as [|i l Hi F IH]; [reflexivity|]. cbn [mapR map]. rewrite np_index_in by exact Hi. cbn [bind]. rewrite IH. reflexivity. }
    rewrite E. cbn [bind rmap atleast3 a_c]. eexists. split; [reflexivity|]. cbn [a_h a_w a_c a_pix]. auto.
  - rewrite !axis_slice_in by lia. rewrite Hc. cbn [rmap atleast3 a_c]. eexists. split; [reflexivity|]. cbn [a_h a_w a_c a_pix].
    split; [reflexivity|]. split; [reflexivity|].
    set (s := match lo with None => 0 | Some i => slice_bound n i end).
    set (e := match hi with None => n | Some i => slice_bound n i end).
    assert (Hs : 0 <= s <= n) by (unfold s; destruct lo; [|lia]; unfold slice_bound; destruct (Z.ltb_spec z 0); lia).
    assert (He : 0 <= e <= n) by (unfold e; destruct hi; [|lia]; unfold slice_bound; destruct (Z.ltb_spec z 0); lia).
    assert (L : Z.of_nat (List.length (sliced (lo, hi) (upto n))) = Z.max 0 (e - s)).
    { unfold sliced, py_slice. cbn [fst snd]. rewrite (upto_length n Hn). fold s e. rewrite firstn_length, skipn_length.
      assert (List.length (upto n) = Z.to_nat n) by (pose proof (upto_length n Hn); lia). lia. }
    split; [now rewrite L|]. intros r c k Hk. f_equal.
    unfold sliced, py_slice. cbn [fst snd]. rewrite (upto_length n Hn). fold s e.
    assert (G : forall (m : list Z) i j, (j < i)%nat -> nth j (firstn i m) 0 = nth j m 0).
    { intros m. induction m as [|z m IH]; intros [|i] [|j] Hij; cbn; try lia; auto. apply IH. lia. }
    assert (G2 : forall (m : list Z) i j, nth j (skipn i m) 0 = nth (i + j) m 0).
    { intros m. induction m as [|z m IH]; intros [|i] j; cbn; try reflexivity; [now destruct j|]. apply IH. }
    rewrite G by lia. rewrite G2. replace (Z.to_nat s + Z.to_nat k)%nat with (Z.to_nat (k + s)) by lia. rewrite upto_at by lia. reflexivity.
  - unfold index_one. rewrite !axis_slice_in by lia. rewrite Hc, np_index_in by exact Hb. cbn [bind rmap atleast3 a_c].
    eexists. split; [reflexivity|]. cbn [a_h a_w a_c a_pix]. split; [reflexivity|]. split; [reflexivity|]. split; [reflexivity|].
    intros r c j Hj. cbn [List.length] in Hj. assert (j = 0) as -> by lia. reflexivity.
  - unfold index_array. rewrite !axis_slice_in by lia. cbn [rmap]. eexists. split; [reflexivity|].
    unfold atleast3. cbn [a_c]. rewrite Hc. cbn [a_h a_w a_c a_pix]. split; [reflexivity|]. split; [reflexivity|].
    split; [rewrite upto_length by exact Hn; reflexivity|]. rewrite upto_length by exact Hn. intros r c j Hj. now rewrite upto_at.
Qed.

Context (l : leaf) (nl : list string) (HS : stored W l nl).

(* [v] shows the window at (y0, x0) of size w x h of the leaf, with the bands [bs] *)
Record means (v : view) (y0 x0 h w : Z) (bs : list Z) (nms : list string) (a : array V) : Prop := Means {
  m_dsize : v_dsize v = (w, h);
  m_y : 0 <= y0 /\ 0 <= h /\ y0 + h <= snd (l_dsize l);
  m_x : 0 <= x0 /\ 0 <= w /\ x0 + w <= fst (l_dsize l);
  m_bs : Forall (fun p => 0 <= p < Z.of_nat (List.length nl)) bs;
  m_names : v_names v = Some nms;
  m_items : items (Some bs) nl nms;
  m_nc : v_channels v = Some (Z.of_nat (List.length bs));
  m_final : v_finalize W v = Ok a;
  m_h : a_h a = h; m_w : a_w a = w; m_c : a_c a = Some (Z.of_nat (List.length bs));
  m_pix : forall r c k, 0 <= k < Z.of_nat (List.length bs) ->
    a_pix a r c k = w_pix W (l_id l) (r + y0) (c + x0) (nth (Z.to_nat k) bs 0) }.

Lemma means_source : exists a, means (Source l) 0 0 (snd (l_dsize l)) (fst (l_dsize l)) (upto (Z.of_nat (List.length nl))) nl a.
Proof.
  destruct HS as (Hk & Hf & Hn & Hc & Hw & Hh).
  assert (E : exists a, v_finalize W (Source l) = Ok a /\ a = Arr (snd (l_dsize l)) (fst (l_dsize l)) (Some (Z.of_nat (List.length nl))) (fun r c b => w_pix W (l_id l) r c b)).
  { cbn. unfold finalize_leaf. rewrite Hc, Hk, Hf. destruct (l_dsize l). eauto. }
  destruct E as (a & Ea & ->). eexists. constructor; try exact Ea; cbn; auto; try lia.
  - destruct (l_dsize l); reflexivity.
  - apply (kept_range (Z.of_nat (List.length nl)) None); [lia|exact I].
  - clear. assert (G : forall d (m : list string), Forall2 (fun i x => nth_error (d ++ m) (Z.to_nat i) = Some x) (map Z.of_nat (seq (List.length d) (List.length m))) m).
    { intros d m. revert d. induction m as [|x m IH]; intros d; cbn; constructor.
      - rewrite Nat2Z.id, nth_error_app2, Nat.sub_diag by lia. reflexivity.
      - specialize (IH (d ++ [x])%list). rewrite app_length in IH. cbn in IH. rewrite Nat.add_1_r in IH. rewrite <- app_assoc in IH. exact IH. }
    unfold upto, zseq. rewrite Nat2Z.id. apply (G []).
  - rewrite upto_length by lia. exact Hc.
  - rewrite upto_length by lia. reflexivity.
  - intros r c k Hk'. rewrite upto_length in Hk' by lia. rewrite upto_at by exact Hk'. f_equal; lia.
Qed.

Lemma means_names v y0 x0 h w bs nms a : means v y0 x0 h w bs nms a -> List.length nms = List.length bs.
Proof. intros M. eapply items_length, m_items, M. Qed.

(* the bands of the bands *)
Definition through (bs ps : list Z) : list Z := map (fun p => nth (Z.to_nat p) bs 0) ps.

Lemma through_items ps bs (nms nms' : list string) : items (Some bs) nl nms -> items (Some ps) nms nms' ->
  Forall (fun p => 0 <= p < Z.of_nat (List.length bs)) ps -> items (Some (through bs ps)) nl nms'.
Proof.
  cbn [items]. intros H1 H2 H3. induction H2 as [|p x ps xs Hp H2 IH]; [constructor|]. inversion H3; subst. constructor; [|auto].
  clear -Hp H1 H4. revert Hp. assert (K : (Z.to_nat p < List.length bs)%nat) by lia. revert K. generalize (Z.to_nat p). clear p H4.
  induction H1 as [|b y bs ys Hb H1 IH]; cbn; intros [|q] K Hp; cbn in *; try lia; [congruence|]. apply IH; [lia|exact Hp].
Qed.

Lemma through_range bs ps n : Forall (fun p => 0 <= p < n) bs -> Forall (fun p => 0 <= p < Z.of_nat (List.length bs)) ps ->
  Forall (fun p => 0 <= p < n) (through bs ps).
Proof.
  intros H. induction 1 as [|p ps Hp F IH]; cbn; constructor; auto.
  rewrite Forall_forall in H. apply H. apply nth_In. lia.
Qed.

Lemma through_nth bs ps k : (k < List.length ps)%nat -> nth k (through bs ps) 0 = nth (Z.to_nat (nth k ps 0)) bs 0.
Proof.
  intros H. unfold through. rewrite (nth_indep (map (fun p => nth (Z.to_nat p) bs 0) ps) 0 (nth (Z.to_nat 0) bs 0)) by (rewrite map_length; exact H).
  apply (map_nth (fun p => nth (Z.to_nat p) bs 0)).
Qed.

Lemma through_all bs : through bs (upto (Z.of_nat (List.length bs))) = bs.
Proof.
  unfold through, upto, zseq. rewrite Nat2Z.id, map_map.
  apply (nth_ext _ _ 0 0); [now rewrite map_length, seq_length|]. intros k Hk. rewrite map_length, seq_length in Hk.
  rewrite (nth_indep _ 0 ((fun i => nth (Z.to_nat (Z.of_nat i)) bs 0) 0%nat)) by now rewrite map_length, seq_length.
  rewrite (map_nth (fun i => nth (Z.to_nat (Z.of_nat i)) bs 0)), seq_nth by lia. rewrite Nat2Z.id. reflexivity.
Qed.

(* what one subscript does *)
Lemma new_select_means v y0 x0 h w bs nms a ys xs b v' : means v y0 x0 h w bs nms a -> new_select v (ys, xs) b = Ok v' ->
  exists y x nm nc nms' a', wrap_clip h ys = Ok y /\ wrap_clip w xs = Ok x /\
    v' = Select v y x b (iv_len x, iv_len y) nm nc /\ kept_ok (Z.of_nat (List.length bs)) b /\
    items (Some (kept b (Z.of_nat (List.length bs)))) nms nms' /\
    a_h a' = iv_len y /\ a_w a' = iv_len x /\ a_c a' = Some (Z.of_nat (List.length (kept b (Z.of_nat (List.length bs))))) /\
    (forall r c k, 0 <= k < Z.of_nat (List.length (kept b (Z.of_nat (List.length bs)))) ->
      a_pix a' r c k = a_pix a (r + fst y) (c + fst x) (nth (Z.to_nat k) (kept b (Z.of_nat (List.length bs))) 0)) /\
    means v' (y0 + fst y) (x0 + fst x) (iv_len y) (iv_len x) (through bs (kept b (Z.of_nat (List.length bs)))) nms' a'.
Proof.
  intros M H. pose proof (means_names _ _ _ _ _ _ _ _ M) as L. destruct M as [Md My Mx Mb Mn Mi Mv Mf Mh Mw Mc Mp].
  unfold new_select in H. rewrite Md in H. cbn [fst snd] in H.
  apply bind_ok in H as (y & Hy & H). apply bind_ok in H as (x & Hx & H).
  apply bind_ok in H as ([nm nc] & Hb & H). injection H as <-.
  pose proof (wrap_clip_bounds h ys y ltac:(lia) Hy) as By. pose proof (wrap_clip_bounds w xs x ltac:(lia) Hx) as Bx.
  assert (K : exists nms', kept_ok (Z.of_nat (List.length bs)) b /\ items (Some (kept b (Z.of_nat (List.length bs)))) nms nms' /\
              match nm with Some n => Some n | None => v_names v end = Some nms' /\
              match nc with Some n => Some n | None => v_channels v end = Some (Z.of_nat (List.length nms'))).
  { destruct b as [b|]; cbn [kept kept_ok].
    - rewrite Mn in Hb. destruct (in_range_dec (Z.of_nat (List.length nms)) b) as [R|R].
      + destruct (choose_ok nms b R) as (nms' & E & I). rewrite E in Hb. cbn [bind] in Hb. injection Hb as <- <-.
        rewrite L in R, I. exists nms'. auto.
      + rewrite (choose_bad _ _ R) in Hb. discriminate.
    - injection Hb as <- <-. exists nms. split; [exact I|]. split; [|split; [exact Mn|rewrite L; exact Mv]].
      clear -L. cbn [items]. rewrite <- L. clear L bs.
      assert (G : forall d (m : list string), Forall2 (fun i x => nth_error (d ++ m) (Z.to_nat i) = Some x) (map Z.of_nat (seq (List.length d) (List.length m))) m).
      { intros d m. revert d. induction m as [|x m IH]; intros d; cbn; constructor.
        - rewrite Nat2Z.id, nth_error_app2, Nat.sub_diag by lia. reflexivity.
        - specialize (IH (d ++ [x])%list). rewrite app_length in IH. cbn in IH. rewrite Nat.add_1_r in IH. rewrite <- app_assoc in IH. exact IH. }
      unfold upto, zseq. rewrite Nat2Z.id. apply (G []). }
  destruct K as (nms' & Kok & Ki & Kn & Kv). set (n := Z.of_nat (List.length bs)) in *.
  destruct (index_bands_ok a n y x b Mc ltac:(unfold n; lia) Kok ltac:(lia) ltac:(lia) ltac:(lia) ltac:(lia) ltac:(lia) ltac:(lia))
    as (a' & Ea & A1 & A2 & A3 & A4).
  exists y, x, nm, nc, nms', a'. split; [exact Hy|]. split; [exact Hx|]. split; [reflexivity|]. split; [exact Kok|]. split; [exact Ki|].
  split; [exact A1|]. split; [exact A2|]. split; [exact A3|]. split; [exact A4|].
  assert (KR : Forall (fun p => 0 <= p < n) (kept b n)) by (apply kept_range; [unfold n; lia|exact Kok]).
  assert (TL : List.length (through bs (kept b n)) = List.length (kept b n)) by (unfold through; apply map_length).
  constructor; cbn [v_dsize v_names v_finalize v_channels]; try reflexivity; try (unfold iv_len; lia); auto.
  - now apply through_range.
  - now apply through_items with (nms := nms).
  - rewrite TL, Kv. f_equal. f_equal. exact (items_length _ _ _ Ki).
  - rewrite Mf. exact Ea.
  - rewrite TL. exact A3.
  - rewrite TL. intros r c k Hk. rewrite A4 by exact Hk. rewrite through_nth by lia.
    assert (KN : 0 <= nth (Z.to_nat k) (kept b n) 0 < n).
    { rewrite Forall_forall in KR. apply KR. apply nth_In. lia. }
    rewrite Mp by exact KN. f_equal; lia.
Qed.

Lemma indexed_means v : indexed l v -> exists y0 x0 h w bs nms a, means v y0 x0 h w bs nms a.
Proof.
  induction 1 as [|v i v' Hv (y0 & x0 & h & w & bs & nms & a & M) Hi].
  - destruct means_source as (a & M). do 7 eexists. exact M.
  - destruct i as [|ys xs|ys xs b|]; cbn [v_index] in Hi; try discriminate;
    destruct (new_select_means _ _ _ _ _ _ _ _ _ _ _ _ M Hi) as (y & x & nm & nc & nms' & a' & _ & _ & _ & _ & _ & _ & _ & _ & _ & M'); do 7 eexists; exact M'.
Qed.
End Means.

(** ** Fused selections *)

Lemma fuse_lists n i o : in_range n (BandList i) -> in_range (Z.of_nat (List.length i)) (BandList o) ->
  exists r, mapR (fun k => py_get i k) o = Ok r /\ in_range n (BandList r) /\
    picked (BandList r) n = through (picked (BandList i) n) (picked (BandList o) (Z.of_nat (List.length i))).
Proof.
  intros Hi Ho. cbn [in_range picked] in *. induction Ho as [|k o Hk F IH]; cbn [mapR map]; [exists []; split; [reflexivity|]; split; constructor|].
  destruct (py_get_in i k Hk) as (x & -> & Hx). destruct IH as (r & -> & Fr & Er). cbn [bind]. exists (x :: r). split; [reflexivity|].
  split; [constructor; [|exact Fr]; rewrite Forall_forall in Hi; apply Hi; eapply nth_error_In; exact Hx|].
  cbn [map through]. rewrite Er. unfold through. cbn [map]. f_equal.
  erewrite (nth_error_nth (map (band_at n) i)); [reflexivity|]. rewrite nth_error_map, Hx. reflexivity.
Qed.

Lemma through_upto n ps : Forall (fun p => 0 <= p < n) ps -> through (upto n) ps = ps.
Proof. induction 1 as [|p ps Hp F IH]; [reflexivity|]. unfold through in *. cbn [map]. rewrite IH, upto_at by exact Hp. reflexivity. Qed.

(* the selection of the optimized view *)
Definition fused_form (bs : list bands) (b1 : option bands) : Prop :=
  match bs with
  | [] => b1 = None
  | [b] => b1 = Some b
  | _ => exists li, b1 = Some (BandList li)
  end.

Lemma fuse_step n sels b1 b : 0 <= n -> fused_form sels b1 -> kept_ok n b1 -> in_range (Z.of_nat (List.length (kept b1 n))) b ->
  (fusable (sels ++ [b]) -> exists b', fuse_bands b1 (Some b) = Ok b' /\ fused_form (sels ++ [b]) b' /\ kept_ok n b' /\
     kept b' n = through (kept b1 n) (picked b (Z.of_nat (List.length (kept b1 n))))) /\
  (fusable sels -> ~ fusable (sels ++ [b]) -> fuse_bands b1 (Some b) = Err TypeError).
Proof.
  intros Hn Hf Hk Hb. destruct sels as [|s0 [|s1 r]]; cbn [fused_form app] in *.
  - subst b1. cbn [kept] in *. rewrite upto_length in * by exact Hn. split; [|cbn; tauto]. intros _. exists (Some b).
    split; [destruct b; reflexivity|]. split; [reflexivity|]. split; [exact Hb|]. cbn [kept]. symmetry. apply through_upto. now apply picked_range.
  - subst b1. cbn [kept kept_ok fusable] in *. split.
    + intros [Fl Hl]. inversion Fl as [|? ? [o ->] _]; subst.
      destruct o as [|k o].
      * exists (Some (BandList [])). split; [reflexivity|]. split; [eexists; reflexivity|]. split; [constructor|reflexivity].
      * destruct Hl as [[i ->]|D]; [|discriminate]. cbn [picked] in Hb |- *. rewrite map_length in *.
        destruct (fuse_lists n i (k :: o) Hk Hb) as (z & E & R & P). exists (Some (BandList z)).
        split; [cbn [fuse_bands]; rewrite E; reflexivity|]. split; [eexists; reflexivity|]. split; [exact R|exact P].
    + intros _ Nf. destruct b as [o|s|k]; try reflexivity. destruct s0 as [i|s|k]; destruct o as [|z o]; try reflexivity; exfalso; apply Nf;
        (split; [constructor; [eexists; reflexivity|constructor]|]); try (right; reflexivity); left; eexists; reflexivity.
  - destruct Hf as [i ->]. cbn [kept kept_ok fusable] in *. split.
    + intros [Fl Hl]. inversion Fl as [|? ? _ Fl']; subst. apply Forall_app in Fl' as [_ Fb]. inversion Fb as [|? ? [o ->] _]; subst.
      cbn [picked] in Hb |- *. rewrite map_length in *.
      destruct (fuse_lists n i o Hk Hb) as (z & E & R & P). exists (Some (BandList z)).
      split; [cbn [fuse_bands]; rewrite E; reflexivity|]. split; [eexists; reflexivity|]. split; [exact R|exact P].
    + intros [Fl Hl] Nf. destruct b as [o|s|k]; try reflexivity. exfalso. apply Nf. split; [|exact Hl].
      inversion Fl; subst. constructor; [assumption|]. apply Forall_app. split; [assumption|]. constructor; [eexists; reflexivity|constructor].
Qed.

Lemma fusable_app sels b : fusable (sels ++ [b]) -> fusable sels.
Proof.
  destruct sels as [|s0 [|s1 r]]; cbn; try tauto. intros [F H]. split; [|exact H]. inversion F; subst. constructor; [assumption|].
  apply Forall_app in H3. tauto.
Qed.

Section Fuse.
Context {V : Type} (W : world V) (l : leaf) (nl : list string) (HS : stored W l nl).
Notation means := (means W l nl).

Lemma same_means v v' y0 x0 h w bs nms a nms' a' : means v y0 x0 h w bs nms a -> means v' y0 x0 h w bs nms' a' ->
  nms' = nms /\ same_array a a' /\ v_dsize v' = v_dsize v.
Proof.
  intros M M'. destruct M as [Md My Mx Mb Mn Mi Mv Mf Mh Mw Mc Mp], M' as [Md' My' Mx' Mb' Mn' Mi' Mv' Mf' Mh' Mw' Mc' Mp'].
  split.
  - cbn [items] in *. clear -Mi Mi'. revert nms' Mi'. induction Mi as [|b x bs xs Hb F IH]; intros nms' M'; inversion M'; subst; [reflexivity|].
    f_equal; [congruence|auto].
  - split; [|congruence]. unfold same_array. split; [congruence|]. split; [congruence|]. split; [congruence|].
    rewrite Mc. intros r c k _ _ Hk. rewrite Mp, Mp' by exact Hk. reflexivity.
Qed.

Lemma new_select_ok v y0 x0 h w bs nms a ys xs y x b : means v y0 x0 h w bs nms a -> wrap_clip h ys = Ok y -> wrap_clip w xs = Ok x ->
  kept_ok (Z.of_nat (List.length bs)) b -> exists v', new_select v (ys, xs) b = Ok v'.
Proof.
  intros M Hy Hx Hb. unfold new_select. rewrite (m_dsize _ _ _ _ _ _ _ _ _ _ _ M). cbn [fst snd]. rewrite Hy, Hx. cbn [bind].
  destruct b as [b|]; cbn [kept_ok] in Hb; [|cbn [bind]; eauto].
  rewrite (m_names _ _ _ _ _ _ _ _ _ _ _ M). rewrite <- (means_names _ _ _ _ _ _ _ _ _ _ _ M) in Hb.
  destruct (choose_ok nms b Hb) as (nms' & -> & _). cbn [bind]. eauto.
Qed.

Lemma fuse_axis_in y0 h y D : 0 <= y0 -> 0 <= fst y -> fst y <= snd y -> snd y <= h -> y0 + h <= D ->
  wrap_clip D (fuse_axis (y0, y0 + h) y) = Ok (y0 + fst y, y0 + snd y).
Proof.
  intros. unfold fuse_axis. cbn [fst snd]. rewrite !Z.min_l by lia. apply wrap_clip_id; lia.
Qed.

Lemma optimize_means v : indexed l v -> exists y0 x0 h w bs nms a, means v y0 x0 h w bs nms a /\
  (v = Source l -> y0 = 0 /\ x0 = 0 /\ bs = upto (Z.of_nat (List.length nl))) /\
  (fusable (selections v) -> exists v', v_optimize v = Ok v' /\
     ((v = Source l /\ v' = Source l) \/
      exists b1 nm nc a', v' = Select (Source l) (y0, y0 + h) (x0, x0 + w) b1 (w, h) nm nc /\
        fused_form (selections v) b1 /\ kept_ok (Z.of_nat (List.length nl)) b1 /\
        kept b1 (Z.of_nat (List.length nl)) = bs /\ means v' y0 x0 h w bs nms a')) /\
  (~ fusable (selections v) -> v_optimize v = Err TypeError).
Proof.
  induction 1 as [|v i v' Hv (y0 & x0 & h & w & bs & nms & a & M & IS & IH1 & IH2) Hi].
  - destruct (means_source W l nl HS) as (a & M). do 7 eexists. split; [exact M|]. split; [auto|]. split; [|cbn; tauto]. intros _. eexists. split; [reflexivity|]. left. auto.
  - assert (E : exists ys xs b, new_select v (ys, xs) b = Ok v') by (destruct i; cbn [v_index] in Hi; try discriminate; eauto).
    destruct E as (ys & xs & b & E). clear Hi i.
    destruct (new_select_means W l nl _ _ _ _ _ _ _ _ _ _ _ _ M E) as (y & x & nm & nc & nms' & a' & Hy & Hx & Ev & Ko & Ki & _ & _ & _ & _ & M').
    do 7 eexists. split; [exact M'|]. split; [intros ->; discriminate|].
    set (n := Z.of_nat (List.length nl)) in *. assert (Hn : 0 <= n) by (unfold n; lia).
    pose proof (m_y _ _ _ _ _ _ _ _ _ _ _ M) as My. pose proof (m_x _ _ _ _ _ _ _ _ _ _ _ M) as Mx.
    pose proof (wrap_clip_bounds h ys y ltac:(lia) Hy) as By. pose proof (wrap_clip_bounds w xs x ltac:(lia) Hx) as Bx.
    rewrite Ev. cbn [selections v_optimize].
    assert (FS : fusable (selections v ++ match b with Some b => [b] | None => [] end) -> fusable (selections v)).
    { destruct b; [apply fusable_app|now rewrite app_nil_r]. }
    destruct (means_source W l nl HS) as (a0 & M0).
    split.
    + intros Hf. destruct (IH1 (FS Hf)) as (s' & Es & [[-> ->]|(b1 & nm1 & nc1 & a1 & -> & Ff & Kb & Kk & M1)]).
      * rewrite Es. cbn [bind]. eexists. split; [reflexivity|]. right. destruct (IS eq_refl) as (-> & -> & ->). fold n in Ko |- *.
        rewrite upto_length in * by exact Hn.
        assert (T : through (upto n) (kept b n) = kept b n) by (apply through_upto, kept_range; auto).
        exists b, nm, nc, a'. split; [f_equal; [destruct y|destruct x]; unfold iv_len; cbn [fst snd]; f_equal; lia|].
        split; [destruct b; reflexivity|]. split; [exact Ko|]. split; [now rewrite T|]. rewrite <- Ev. exact M'.
      * rewrite Es. cbn [bind].
        assert (FB : exists b', fuse_bands b1 b = Ok b' /\ fused_form (selections v ++ match b with Some b => [b] | None => [] end) b' /\ kept_ok n b' /\
                      kept b' n = through bs (kept b (Z.of_nat (List.length bs)))).
        { destruct b as [b|].
          - cbn [kept kept_ok] in Ko |- *. rewrite <- Kk in Ko |- *. destruct (fuse_step n (selections v) b1 b Hn Ff Kb Ko) as [F1 _]. exact (F1 Hf).
          - exists b1. split; [destruct b1 as [b1|]; reflexivity|]. rewrite app_nil_r. split; [exact Ff|]. split; [exact Kb|].
            cbn [kept]. now rewrite through_all. }
        destruct FB as (b' & -> & Ff' & Kb' & Kk'). cbn [bind].
        pose proof (fuse_axis_in y0 h y (snd (l_dsize l)) ltac:(lia) ltac:(lia) ltac:(lia) ltac:(lia) ltac:(lia)) as Fy.
        pose proof (fuse_axis_in x0 w x (fst (l_dsize l)) ltac:(lia) ltac:(lia) ltac:(lia) ltac:(lia) ltac:(lia)) as Fx.
        assert (Kb2 : kept_ok (Z.of_nat (List.length (upto n))) b') by (rewrite upto_length by exact Hn; exact Kb').
        destruct (new_select_ok _ _ _ _ _ _ _ _ _ _ _ _ _ M0 Fy Fx Kb2) as (v2 & E2). rewrite E2. exists v2. split; [reflexivity|]. right.
        destruct (new_select_means W l nl _ _ _ _ _ _ _ _ _ _ _ _ M0 E2) as (y2 & x2 & nm2 & nc2 & nms2 & a2 & Hy2 & Hx2 & Ev2 & _ & _ & _ & _ & _ & _ & M2).
        rewrite Fy in Hy2. injection Hy2 as <-. rewrite Fx in Hx2. injection Hx2 as <-. fold n in M2. rewrite upto_length in M2 by exact Hn.
        rewrite through_upto in M2 by (apply kept_range; auto). rewrite Kk' in M2. unfold iv_len in *. cbn [fst snd] in *.
        replace (0 + (y0 + fst y)) with (y0 + fst y) in M2 by lia. replace (0 + (x0 + fst x)) with (x0 + fst x) in M2 by lia.
        replace (y0 + snd y - (y0 + fst y)) with (snd y - fst y) in * by lia. replace (x0 + snd x - (x0 + fst x)) with (snd x - fst x) in * by lia.
        destruct (same_means _ _ _ _ _ _ _ _ _ _ _ M' M2) as (-> & _ & _).
        exists b', nm2, nc2, a2. split; [rewrite Ev2; f_equal; f_equal; lia|]. split; [exact Ff'|]. split; [exact Kb'|]. split; [exact Kk'|exact M2].
    + intros Nf. destruct b as [b|]; [|rewrite app_nil_r in Nf; rewrite (IH2 Nf); reflexivity].
      assert (D : fusable (selections v) \/ ~ fusable (selections v)).
      { assert (Dl : forall b : bands, is_list b \/ ~ is_list b) by (intros [m|m|m]; [left; eexists; reflexivity|right; intros [? ?]; discriminate|right; intros [? ?]; discriminate]).
        destruct (selections v) as [|s0 [|s1 r]]; cbn [fusable]; [tauto|tauto|].
        assert (DF : forall m : list bands, Forall is_list m \/ ~ Forall is_list m).
        { induction m as [|z m [IH|IH]]; [left; constructor| |right; intros F; inversion F; auto].
          destruct (Dl z); [left; constructor; auto|right; intros F; inversion F; auto]. }
        destruct (DF (s1 :: r)); [|tauto]. destruct (Dl s0); [tauto|].
        destruct s1 as [[|z m]|m|m]; [tauto|right; intros [_ [?|?]]; [auto|discriminate]..]. }
      destruct D as [D|D]; [|rewrite (IH2 D); reflexivity].
      destruct (IH1 D) as (s' & Es & [[-> ->]|(b1 & nm1 & nc1 & a1 & -> & Ff & Kb & Kk & M1)]); [exfalso; apply Nf; exact I|].
      rewrite Es. cbn [bind]. cbn [kept_ok] in Ko. rewrite <- Kk in Ko. destruct (fuse_step n (selections v) b1 b Hn Ff Kb Ko) as [_ F2].
      rewrite (F2 D Nf). reflexivity.
Qed.
End Fuse.
