(* Proofs about nearest-neighbour warps (PixModel.v, PixSpec.v). *)
From Verif Require Import Py PyProofs GeomModel GeomProofs GraphModel GraphBase GraphOpt FinalModel PixModel PixSpec.
From Coq Require Import Qfield Ascii.
Local Open Scope Q_scope.

(** ** Images moved by an index function *)

Lemma moved_by {V} (fill : V) M d a a' (X Y : Z -> Z -> Z) :
  a_w a' = fst d -> a_h a' = snd d ->
  (forall r c, (0 <= c < fst d)%Z -> (0 <= r < snd d)%Z -> forall x y, below M c r x y <-> x = X c r /\ y = Y c r) ->
  (forall r c k, (0 <= c < fst d)%Z -> (0 <= r < snd d)%Z ->
     a_pix a' r c k = if ((0 <=? X c r) && (X c r <? a_w a) && (0 <=? Y c r) && (Y c r <? a_h a))%Z%bool
                      then a_pix a (Y c r) (X c r) k else fill) ->
  moved fill M d a a'.
Proof.
  intros Hw Hh HB Hp. split; [exact Hw|]. split; [exact Hh|]. intros r c k Hc Hr. rewrite (Hp _ _ k Hc Hr). split.
  - intros x y Hb [Hx Hy]. apply (HB _ _ Hc Hr) in Hb as [-> ->].
    replace ((0 <=? X c r) && (X c r <? a_w a) && (0 <=? Y c r) && (Y c r <? a_h a))%Z%bool with true; [reflexivity|].
    symmetry. rewrite !andb_true_iff. lia.
  - intros H. destruct ((0 <=? X c r) && (X c r <? a_w a) && (0 <=? Y c r) && (Y c r <? a_h a))%Z%bool eqn:E; [|reflexivity].
    rewrite !andb_true_iff in E. exfalso. apply (H (X c r) (Y c r)); [apply (HB _ _ Hc Hr); auto|split; lia].
Qed.

Lemma in_pixel_floor u v x y : in_pixel u v x y <-> x = Qfloor u /\ y = Qfloor v.
Proof.
  assert (G : forall q n, (inject_Z n <= q < inject_Z n + 1) <-> n = Qfloor q).
  { intros q n. split; [|intros ->].
    - intros H. symmetry. apply floor_eq_iff. exact H.
    - apply (floor_eq_iff q (Qfloor q)). reflexivity. }
  unfold in_pixel. now rewrite !G.
Qed.

(** ** Sampling with the inverse *)

Lemma inv_points M I : aff_inv M = Ok I ->
  (forall x y, ax M (ax I x y) (ay I x y) == x /\ ay M (ax I x y) (ay I x y) == y) /\
  (forall u v, ax I (ax M u v) (ay M u v) == u /\ ay I (ax M u v) (ay M u v) == v).
Proof.
  intros H. apply aff_inv_ok in H as [-> D]. unfold aff_det in D.
  split; intros; unfold ax, ay, aff_inv_raw, aff_det; cbn; split; field; exact D.
Qed.

Lemma below_inv M I c r x y : aff_inv M = Ok I ->
  below M c r x y <-> x = Qfloor (ax I (inject_Z c + (1#2)) (inject_Z r + (1#2))) /\
                      y = Qfloor (ay I (inject_Z c + (1#2)) (inject_Z r + (1#2))).
Proof.
  intros HI. destruct (inv_points _ _ HI) as [H1 H2]. unfold below. split.
  - intros (u & v & Hu & Hv & Hp). apply in_pixel_floor in Hp as [-> ->].
    destruct (H2 u v) as [E1 E2].
    assert (F1 : ax I (inject_Z c + (1#2)) (inject_Z r + (1#2)) == u) by (rewrite <- E1; unfold ax at 1 2; rewrite Hu, Hv; reflexivity).
    assert (F2 : ay I (inject_Z c + (1#2)) (inject_Z r + (1#2)) == v) by (rewrite <- E2; unfold ay at 1 2; rewrite Hu, Hv; reflexivity).
    rewrite F1, F2. auto.
  - intros [-> ->]. eexists _, _. split; [apply H1|]. split; [apply H1|]. now apply in_pixel_floor.
Qed.

Lemma sample_moved {V} (W : world V) M I d a : aff_inv M = Ok I ->
  moved (w_fill W) M d a (sample_at W I d a).
Proof.
  intros HI. eapply moved_by; [reflexivity|reflexivity|intros; apply below_inv; exact HI|].
  intros r c k Hc Hr. reflexivity.
Qed.

Lemma atleast3_moved {V} (fill : V) M d a a' : moved fill M d a a' -> moved fill M d a (atleast3 a').
Proof. unfold atleast3. destruct (a_c a'); auto. Qed.

(** ** Whole factors and offsets *)

Lemma floor_whole (s t i : Z) e : (0 < s)%Z -> 0 <= e -> e < 1 ->
  Qfloor ((inject_Z i + e - inject_Z t) / inject_Z s) = ((i - t) / s)%Z.
Proof.
  intros Hs He1 He2. apply floor_eq_iff.
  assert (Ps : 0 < inject_Z s) by (change 0 with (inject_Z 0); now rewrite <- Zlt_Qlt).
  pose proof (Z.div_mod (i - t) s ltac:(lia)) as E. pose proof (Z.mod_pos_bound (i - t) s Hs) as B.
  set (q := ((i - t) / s)%Z) in *. set (m := ((i - t) mod s)%Z) in *.
  assert (Eq : inject_Z i - inject_Z t == inject_Z s * inject_Z q + inject_Z m).
  { rewrite <- inject_Z_mult, <- inject_Z_plus, <- E. unfold Z.sub. rewrite inject_Z_plus, inject_Z_opp. ring. }
  assert (B1 : 0 <= inject_Z m) by (change 0 with (inject_Z 0); rewrite <- Zle_Qle; lia).
  assert (B2 : inject_Z m <= inject_Z s - 1).
  { change 1 with (inject_Z 1). setoid_replace (inject_Z s - inject_Z 1) with (inject_Z (s - 1))
      by (unfold Z.sub; rewrite inject_Z_plus, inject_Z_opp; reflexivity). rewrite <- Zle_Qle. lia. }
  split.
  - apply Qle_shift_div_l; [exact Ps|]. lra.
  - apply Qlt_shift_div_r; [exact Ps|]. lra.
Qed.

Lemma below_whole sx sy tx ty c r x y : (0 < sx)%Z -> (0 < sy)%Z ->
  below (Aff (inject_Z sx) 0 0 (inject_Z sy) (inject_Z tx) (inject_Z ty)) c r x y <->
  x = ((c - tx) / sx)%Z /\ y = ((r - ty) / sy)%Z.
Proof.
  intros Hx Hy.
  assert (Px : 0 < inject_Z sx) by (change 0 with (inject_Z 0); now rewrite <- Zlt_Qlt).
  assert (Py : 0 < inject_Z sy) by (change 0 with (inject_Z 0); now rewrite <- Zlt_Qlt).
  unfold below. split.
  - intros (u & v & Hu & Hv & Hp). apply in_pixel_floor in Hp as [-> ->]. unfold ax, ay in Hu, Hv. cbn in Hu, Hv.
    rewrite <- (floor_whole sx tx c (1#2)), <- (floor_whole sy ty r (1#2)) by lia || lra.
    split; apply Qfloor_comp.
    + rewrite <- Hu. field. lra.
    + rewrite <- Hv. field. lra.
  - intros [-> ->]. exists ((inject_Z c + (1#2) - inject_Z tx) / inject_Z sx), ((inject_Z r + (1#2) - inject_Z ty) / inject_Z sy).
    split; [unfold ax; cbn; field; lra|]. split; [unfold ay; cbn; field; lra|].
    apply in_pixel_floor. rewrite !floor_whole by lia || lra. auto.
Qed.

Lemma shift_moved {V} (W : world V) sx sy tx ty d a a' : (0 < sx)%Z -> (0 < sy)%Z -> (tx <> 0 \/ ty <> 0)%Z ->
  nearest_array W (Aff (inject_Z sx) 0 0 (inject_Z sy) (inject_Z tx) (inject_Z ty)) d a = Ok a' ->
  moved (w_fill W) (Aff (inject_Z sx) 0 0 (inject_Z sy) (inject_Z tx) (inject_Z ty)) d a a'.
Proof.
  intros Hx Hy Ht H. unfold nearest_array in H. cbn [b1 b2 a11 a22] in H.
  assert (Px : 0 < inject_Z sx) by (change 0 with (inject_Z 0); now rewrite <- Zlt_Qlt).
  assert (Py : 0 < inject_Z sy) by (change 0 with (inject_Z 0); now rewrite <- Zlt_Qlt).
  destruct (negb _); [discriminate|].
  destruct (Qeq_bool (inject_Z tx) 0 && Qeq_bool (inject_Z ty) 0)%bool eqn:E.
  { rewrite andb_true_iff, !Qeq_bool_iff in E. change 0 with (inject_Z 0) in E. rewrite !inject_Z_injective in E. lia. }
  apply bind_ok in H as (p & Hp & H). injection H as <-. apply atleast3_moved.
  assert (Hn : (forall r c, p r c = nearest_pixel (fun _ => w_fill W) (inject_Z sx) (inject_Z sy) (inject_Z tx) (inject_Z ty) (a_w a) (a_h a) (fun r c k => a_pix a r c k) r c)
    \/ ((forall r c, p r c = (fun _ => w_fill W)) /\
        ((forall c, (0 <= c < fst d)%Z -> ~ (0 <= (c - tx) / sx < a_w a)%Z) \/ (forall r, (0 <= r < snd d)%Z -> ~ (0 <= (r - ty) / sy < a_h a)%Z)))).
  { unfold nearest_warp in Hp.
    assert (Fl : forall s t i, (0 < s)%Z -> Qfloor ((inject_Z i - inject_Z t) / inject_Z s) = ((i - t) / s)%Z).
    { intros s t i Hs. rewrite <- (floor_whole s t i 0) by lia || lra. apply Qfloor_comp. rewrite Qplus_0_r. reflexivity. }
    destruct (existsb _ _ && existsb _ _)%bool eqn:Ex in Hp.
    - destruct (forallb _ _ && forallb _ _)%bool in Hp; [|discriminate]. injection Hp as <-. left. reflexivity.
    - injection Hp as <-. right. split; [reflexivity|].
      apply andb_false_iff in Ex as [Ex|Ex]; [left|right].
      + intros c Hc Hin. apply Bool.not_true_iff_false in Ex. apply Ex. rewrite existsb_exists.
        exists ((c - tx) / sx)%Z. split; [|rewrite andb_true_iff; lia].
        rewrite in_map_iff. exists c. rewrite Fl by lia. split; [reflexivity|]. now apply zseq_In_Z.
      + intros c Hc Hin. apply Bool.not_true_iff_false in Ex. apply Ex. rewrite existsb_exists.
        exists ((c - ty) / sy)%Z. split; [|rewrite andb_true_iff; lia].
        rewrite in_map_iff. exists c. rewrite Fl by lia. split; [reflexivity|]. now apply zseq_In_Z. }
  apply (moved_by _ _ _ _ _ (fun c _ => ((c - tx) / sx)%Z) (fun _ r => ((r - ty) / sy)%Z)); [reflexivity|reflexivity| |].
  { intros r c _ _ x y. now apply below_whole. }
  assert (Sr : forall s t n i, (0 < s)%Z -> nearest_src (inject_Z s) (inject_Z t) n i =
     if ((0 <=? (i - t) / s) && ((i - t) / s <? n))%Z%bool then Some ((i - t) / s)%Z else None).
  { intros s t n i Hs. unfold nearest_src. 
    assert (Fl : Qfloor ((inject_Z i - inject_Z t) / inject_Z s) = ((i - t) / s)%Z).
    { rewrite <- (floor_whole s t i 0) by lia || lra. apply Qfloor_comp. rewrite Qplus_0_r. reflexivity. }
    rewrite Fl. reflexivity. }
  intros r c k Hc Hr. cbn [a_pix]. destruct Hn as [Hn|[Hn Hv]]; rewrite Hn.
  - unfold nearest_pixel. rewrite !Sr by assumption.
    destruct ((0 <=? (r - ty) / sy) && ((r - ty) / sy <? a_h a))%Z%bool eqn:E1;
    destruct ((0 <=? (c - tx) / sx) && ((c - tx) / sx <? a_w a))%Z%bool eqn:E2; cbn [andb];
    rewrite <- ?Bool.andb_assoc, ?E1; cbn [andb]; rewrite ?Bool.andb_false_r; reflexivity.
  - destruct ((0 <=? (c - tx) / sx) && ((c - tx) / sx <? a_w a) && (0 <=? (r - ty) / sy) && ((r - ty) / sy <? a_h a))%Z%bool eqn:E1; [|reflexivity].
    rewrite !andb_true_iff in E1. destruct Hv as [Hv|Hv]; [specialize (Hv c Hc)|specialize (Hv r Hr)]; lia.
Qed.

Lemma resize_moved {V} (W : world V) sx sy a a' : (0 < sx)%Z -> (0 < sy)%Z -> (0 < a_w a)%Z -> (0 < a_h a)%Z ->
  nearest_array W (aff_scale (inject_Z sx) (inject_Z sy)) (sx * a_w a, sy * a_h a)%Z a = Ok a' ->
  moved (w_fill W) (aff_scale (inject_Z sx) (inject_Z sy)) (sx * a_w a, sy * a_h a)%Z a a'.
Proof.
  intros Hx Hy Hw Hh H. unfold nearest_array in H.
  destruct (negb _); [discriminate|]. cbn [fst snd aff_scale b1 b2] in H. cbn [Qeq_bool andb] in H.
  change (Qeq_bool 0 0 && Qeq_bool 0 0)%bool with true in H. cbv iota in H.
  destruct (_ || _)%bool; [discriminate|]. injection H as <-. apply atleast3_moved.
  change (aff_scale (inject_Z sx) (inject_Z sy)) with (Aff (inject_Z sx) 0 0 (inject_Z sy) (inject_Z 0) (inject_Z 0)).
  apply (moved_by _ _ _ _ _ (fun c _ => (c / sx)%Z) (fun _ r => (r / sy)%Z)); [reflexivity|reflexivity| |].
  { intros r c _ _ x y. rewrite below_whole by assumption. now rewrite !Z.sub_0_r. }
  cbn [fst snd a_pix]. intros r c k Hc Hr. unfold resize_src.
  assert (G : forall i n s, (0 < n)%Z -> (0 < s)%Z -> (i * n / (s * n) = i / s)%Z).
  { intros i n s Hn Hs. apply Z.div_mul_cancel_r; lia. }
  rewrite !G by assumption.
  replace ((0 <=? c / sx) && (c / sx <? a_w a) && (0 <=? r / sy) && (r / sy <? a_h a))%Z%bool with true; [reflexivity|].
  symmetry. rewrite !andb_true_iff. 
  pose proof (Z.div_pos c sx ltac:(lia) Hx). pose proof (Z.div_pos r sy ltac:(lia) Hy).
  pose proof (Z.div_lt_upper_bound c sx (a_w a) Hx ltac:(lia)). pose proof (Z.div_lt_upper_bound r sy (a_h a) Hy ltac:(lia)). lia.
Qed.

(** ** The two candidates *)

Lemma moved_unique {V} (fill : V) M I d a b b' : aff_inv M = Ok I ->
  moved fill M d a b -> moved fill M d a b' ->
  a_w b = a_w b' /\ a_h b = a_h b' /\
  forall r c k, (0 <= c < fst d)%Z -> (0 <= r < snd d)%Z -> a_pix b r c k = a_pix b' r c k.
Proof.
  intros HI (B1 & B2 & B3) (C1 & C2 & C3). split; [congruence|]. split; [congruence|].
  intros r c k Hc Hr. destruct (B3 r c k Hc Hr) as [B4 B5]. destruct (C3 r c k Hc Hr) as [C4 C5].
  set (x := Qfloor (ax I (inject_Z c + (1#2)) (inject_Z r + (1#2)))).
  set (y := Qfloor (ay I (inject_Z c + (1#2)) (inject_Z r + (1#2)))).
  assert (Hxy : below M c r x y) by (apply (below_inv _ _ _ _ _ _ HI); auto).
  destruct ((0 <=? x) && (x <? a_w a) && (0 <=? y) && (y <? a_h a))%Z%bool eqn:E; rewrite ?andb_true_iff in E.
  - rewrite (B4 x y), (C4 x y); auto; split; lia.
  - assert (N : forall x' y', below M c r x' y' -> ~ has_pixel a x' y').
    { intros x' y' Hb [H1 H2]. apply (below_inv _ _ _ _ _ _ HI) in Hb as [-> ->]. fold x y in H1, H2.
      apply Bool.not_true_iff_false in E. apply E. rewrite !andb_true_iff. lia. }
    rewrite B5, C5; auto.
Qed.

Lemma flat_map_ext_in {A B} (f g : A -> list B) l : (forall x, In x l -> f x = g x) -> flat_map f l = flat_map g l.
Proof.
  induction l as [|x l IH]; intros H; [reflexivity|]. cbn. rewrite (H x) by now left. f_equal. apply IH. intros; apply H; now right.
Qed.

Lemma entries_ext {V} (b b' : array V) : a_w b = a_w b' -> a_h b = a_h b' -> a_c b = a_c b' ->
  (forall r c k, (0 <= c < a_w b)%Z -> (0 <= r < a_h b)%Z -> a_pix b r c k = a_pix b' r c k) ->
  entries b = entries b'.
Proof.
  intros Ew Eh Ec H. unfold entries. rewrite <- Ew, <- Eh, <- Ec.
  apply flat_map_ext_in. intros r Hr. apply flat_map_ext_in. intros c Hc. apply map_ext_in. intros k _.
  apply H; now apply zseq_In_Z.
Qed.

Lemma moved_entries {V} (fill : V) M I d a b b' : aff_inv M = Ok I ->
  moved fill M d a b -> moved fill M d a b' -> a_c b = a_c b' -> entries b = entries b'.
Proof.
  intros HI Hb Hb' Hc. destruct (moved_unique _ _ _ _ _ _ _ HI Hb Hb') as (E1 & E2 & E3).
  destruct Hb as (F1 & F2 & _). apply entries_ext; auto. rewrite F1, F2. exact E3.
Qed.

Lemma inv_inv M I : aff_inv M = Ok I -> exists J, aff_inv I = Ok J /\ forall x y, ax J x y == ax M x y /\ ay J x y == ay M x y.
Proof.
  intros H. pose proof H as H'. apply aff_inv_ok in H' as [E D].
  assert (DI : ~ aff_det I == 0).
  { intros Z. destruct (inv_points _ _ H) as [P1 P2].
    assert (Hd : aff_det M * aff_det I == 1).
    { rewrite E. unfold aff_det, aff_inv_raw, aff_det. cbn. unfold aff_det in D. field. exact D. }
    rewrite Z in Hd. lra. }
  unfold aff_inv. destruct (Qeq_bool (aff_det I) 0) eqn:Eb; [apply Qeq_bool_iff in Eb; contradiction|].
  exists (aff_inv_raw I). split; [reflexivity|].
  assert (HJ : aff_inv I = Ok (aff_inv_raw I)) by (unfold aff_inv; now rewrite Eb).
  destruct (inv_points _ _ H) as [P1 P2]. destruct (inv_points _ _ HJ) as [Q1 Q2].
  intros x y. destruct (Q2 (ax M x y) (ay M x y)) as [A1 A2]. destruct (P2 x y) as [A3 A4].
  unfold ax, ay in *. rewrite A3, A4 in A1, A2. auto.
Qed.

Lemma moved_proper {V} (fill : V) M M' d a b : (forall x y, ax M x y == ax M' x y /\ ay M x y == ay M' x y) ->
  moved fill M d a b -> moved fill M' d a b.
Proof.
  intros E (B1 & B2 & B3). split; [exact B1|]. split; [exact B2|]. intros r c k Hc Hr.
  destruct (B3 r c k Hc Hr) as [B4 B5].
  assert (G : forall x y, below M c r x y <-> below M' c r x y).
  { intros x y. unfold below. split; intros (u & v & Hu & Hv & Hp); exists u, v; destruct (E u v) as [E1 E2].
    - rewrite <- E1, <- E2. auto.
    - rewrite E1, E2. auto. }
  split.
  - intros x y Hb. apply B4. now apply G.
  - intros H. apply B5. intros x y Hb. apply H. now apply G.
Qed.

Lemma entries_samples {V} (a : array V) : entries a = samples_of a.
Proof. reflexivity. Qed.

Lemma at3_stretched {V} d (a b : array V) : stretched d a b -> stretched d a (atleast3 b).
Proof. unfold stretched, atleast3. destruct (a_c b) eqn:E; intros (A1 & A2 & A3); auto. Qed.
Lemma src_of n_in n_out i x : (0 < n_out -> x * n_out <= i * n_in < (x + 1) * n_out -> resize_src n_in n_out i = x)%Z.
Proof. intros H L. unfold resize_src. symmetry. apply (Z.div_unique_pos _ _ _ (i * n_in - x * n_out)); nia. Qed.
Lemma imresize_stretched {V} d (a : array V) : stretched d a (imresize d a).
Proof.
  split; [reflexivity|]. split; [reflexivity|]. intros r c k x y Hc Hr Hx Hy. cbn [imresize a_pix].
  rewrite (src_of _ _ r y), (src_of _ _ c x); auto; lia.
Qed.
Lemma at3_size {V} (a : array V) : a_w (atleast3 a) = a_w a /\ a_h (atleast3 a) = a_h a /\ a_c (atleast3 a) = Some (match a_c a with Some n => n | None => 1%Z end).
Proof. unfold atleast3. destruct (a_c a) eqn:E; auto. Qed.
Lemma warp_affine_size {V} (W : world V) dir M d a b : warp_affine W dir M d a = Ok b -> a_w b = fst d /\ a_h b = snd d /\ a_c b = a_c a.
Proof. destruct dir; cbn [warp_affine]; [destruct (aff_inv M); cbn [bind]; [|discriminate]|]; intros [= <-]; auto. Qed.
Lemma warp_nearest_size {V} (W : world V) finite eqb mode lib M d a a' :
  warp_nearest W finite eqb mode lib M d a = Ok a' ->
  a_w a' = fst d /\ a_h a' = snd d /\ a_c a' = Some (match a_c a with Some n => n | None => 1%Z end).
Proof.
  unfold warp_nearest. destruct (axis_aligned M) eqn:A.
  - unfold nearest_array. rewrite A. cbn [negb]. destruct (Qeq_bool (b1 M) 0 && Qeq_bool (b2 M) 0)%bool.
    + destruct ((fst d <=? 0) || (snd d <=? 0))%Z%bool; [discriminate|]. intros H. injection H as <-. match goal with |- context [atleast3 ?x] => exact (at3_size x) end.
    + destruct (nearest_warp _ _ _ _ _ _ _ _ _ _); cbn [bind]; [|discriminate]. intros H. injection H as <-. match goal with |- context [atleast3 ?x] => exact (at3_size x) end.
  - unfold nearest_general. destruct (aff_inv M) as [I|]; cbn [bind]; [|discriminate].
    destruct (match mode with Forward => _ | Inverse => _ end) as [m1 m2].
    destruct (warp_affine W lib m1 d a) as [b1|] eqn:E1; cbn [bind]; [|discriminate].
    destruct (warp_affine W lib m2 d a) as [b2|] eqn:E2; cbn [bind]; [|discriminate].
    intros [= <-]. apply warp_affine_size in E1, E2. destruct E1 as (A1 & A2 & A3), E2 as (B1 & B2 & B3).
    match goal with |- context [atleast3 ?x] => destruct (at3_size x) as (-> & -> & ->); assert (X : a_w x = fst d /\ a_h x = snd d /\ a_c x = a_c a) end.
    { repeat match goal with |- context [if ?b then _ else _] => lazymatch type of b with bool => destruct b end end; auto. }
    destruct X as (-> & -> & ->). auto.
Qed.

Section General.
Context {V : Type} (W : world V) (finite : V -> bool) (eqb : V -> V -> bool).

(* what the general path returns, when the library reads matrixes as expected *)
Lemma general_spec mode M I d a a' : aff_inv M = Ok I ->
  nearest_general W finite eqb mode mode M d a = Ok a' ->
  exists b1 b2, moved (w_fill W) M d a b1 /\ moved (w_fill W) I d a b2 /\ a_c b1 = a_c a /\ a_c b2 = a_c a /\
  let src := uniques eqb [] (filter finite (entries a)) in
  let s1 := score finite eqb src b1 in
  let s2 := score finite eqb src b2 in
  let best := if Qle_bool (fst (fst s2)) (fst (fst s1)) then fst (fst s1) else fst (fst s2) in
  a' = atleast3 (if negb (Qle_bool (1#20) best) then imresize d a else if score_geb s1 s2 then b1 else b2).
Proof.
  intros HI H. unfold nearest_general in H. rewrite HI in H. cbn [bind] in H.
  destruct (inv_inv _ _ HI) as (J & HJ & EJ).
  destruct mode; cbn [warp_affine] in H.
  - rewrite HI, HJ in H. cbn [bind] in H. injection H as <-.
    exists (sample_at W I d a), (sample_at W J d a).
    split; [now apply sample_moved|]. split; [now apply sample_moved|]. split; [reflexivity|]. split; reflexivity.
  - cbn [bind] in H. injection H as <-. exists (sample_at W I d a), (sample_at W M d a).
    split; [now apply sample_moved|]. split.
    + destruct (inv_inv _ _ HJ) as (K & HK & EK).
      assert (EM : forall x y, ax M x y == ax J x y /\ ay M x y == ay J x y) by (intros x y; destruct (EJ x y); split; symmetry; assumption).
      assert (Hs : moved (w_fill W) I d a (sample_at W J d a)) by now apply sample_moved.
      destruct Hs as (S1 & S2 & S3). split; [exact S1|]. split; [exact S2|]. intros r c k Hc Hr.
      assert (Ep : a_pix (sample_at W M d a) r c k = a_pix (sample_at W J d a) r c k).
      { unfold sample_at. cbn [a_pix]. cbv zeta. destruct (EM (inject_Z c + (1#2)) (inject_Z r + (1#2))) as [E1 E2].
        rewrite (Qfloor_comp _ _ E1), (Qfloor_comp _ _ E2). reflexivity. }
      rewrite Ep. now apply S3.
    + split; [reflexivity|]. split; reflexivity.
Qed.

Lemma score_ratio s b : fst (fst (score finite eqb s b)) =
  match entries b with
  | [] => 0
  | _ => inject_Z (Z.of_nat (List.length (filter finite (entries b)))) / inject_Z (Z.of_nat (List.length (entries b)))
  end.
Proof. unfold score. reflexivity. Qed.

Lemma covered_ratio s b : covered finite (entries b) -> (1#20) <= fst (fst (score finite eqb s b)).
Proof. intros [H1 H2]. rewrite score_ratio. destruct (entries b); [congruence|exact H2]. Qed.

Lemma best_ge q s1 s2 : (q <= s1 \/ q <= s2) ->
  negb (Qle_bool q (if Qle_bool s2 s1 then s1 else s2)) = false.
Proof.
  intros H. apply negb_false_iff, Qle_bool_iff. destruct (Qle_bool s2 s1) eqn:E.
  - apply Qle_bool_iff in E. destruct H; lra.
  - assert (~ s2 <= s1) by (intros H1; apply Qle_bool_iff in H1; congruence). destruct H; lra.
Qed.

Lemma length_pos (n : nat) : n <> 0%nat -> 0 < inject_Z (Z.of_nat n).
Proof. intros H. change 0 with (inject_Z 0). rewrite <- Zlt_Qlt. lia. Qed.

Lemma uncovered_ratio s b : ~ covered finite (entries b) -> fst (fst (score finite eqb s b)) < (1#20).
Proof.
  intros H. rewrite score_ratio. destruct (entries b) as [|v l] eqn:E; [reflexivity|]. apply Qnot_le_lt. intros L. apply H. split; [discriminate|exact L].
Qed.

(* neither way shows enough *)
Lemma general_rescue mode M I d a a' b1 b2 : aff_inv M = Ok I ->
  moved (w_fill W) M d a b1 -> moved (w_fill W) I d a b2 -> a_c b1 = a_c a -> a_c b2 = a_c a ->
  ~ covered finite (entries b1) -> ~ covered finite (entries b2) ->
  nearest_general W finite eqb mode mode M d a = Ok a' -> stretched d a a'.
Proof.
  intros HI H1 H2 C1 C2 N1 N2 H. destruct (inv_inv _ _ HI) as (J & HJ & _).
  destruct (general_spec _ _ _ _ _ _ HI H) as (b1' & b2' & M1 & M2 & D1 & D2 & Ea). cbv zeta in Ea.
  assert (E1 : entries b1' = entries b1) by (eapply moved_entries; [exact HI| | |]; eauto; congruence).
  assert (E2 : entries b2' = entries b2) by (eapply moved_entries; [exact HJ| | |]; eauto; congruence).
  set (src := uniques eqb [] (filter finite (entries a))) in *.
  pose proof (uncovered_ratio src b1' ltac:(now rewrite E1)) as R1. pose proof (uncovered_ratio src b2' ltac:(now rewrite E2)) as R2.
  assert (X : negb (Qle_bool (1#20) (if Qle_bool (fst (fst (score finite eqb src b2'))) (fst (fst (score finite eqb src b1'))) then fst (fst (score finite eqb src b1')) else fst (fst (score finite eqb src b2')))) = true).
  { apply negb_true_iff. match goal with |- ?b = false => destruct b eqn:Y; [|reflexivity] end. apply Qle_bool_iff in Y. destruct (Qle_bool _ _); lra. }
  rewrite X in Ea. subst a'. apply at3_stretched, imresize_stretched.
Qed.

(* the image moved forward wins when it has more finite entries *)
Lemma general_forward mode M I d a a' b1 b2 : aff_inv M = Ok I ->
  moved (w_fill W) M d a b1 -> moved (w_fill W) I d a b2 -> a_c b1 = a_c a -> a_c b2 = a_c a ->
  covered finite (entries b1) ->
  (List.length (filter finite (entries b2)) < List.length (filter finite (entries b1)))%nat ->
  nearest_general W finite eqb mode mode M d a = Ok a' -> moved (w_fill W) M d a a'.
Proof.
  intros HI H1 H2 C1 C2 Hcov Hlt H. destruct (inv_inv _ _ HI) as (J & HJ & _).
  destruct (general_spec _ _ _ _ _ _ HI H) as (b1' & b2' & M1 & M2 & D1 & D2 & Ea). cbv zeta in Ea.
  assert (E1 : entries b1' = entries b1) by (eapply moved_entries; [exact HI| | |]; eauto; congruence).
  assert (E2 : entries b2' = entries b2) by (eapply moved_entries; [exact HJ| | |]; eauto; congruence).
  set (src := uniques eqb [] (filter finite (entries a))) in *.
  pose proof (covered_ratio src b1' ltac:(rewrite E1; exact Hcov)) as Hr.
  rewrite best_ge in Ea by (left; exact Hr).
  assert (Hl : List.length (entries b2) = List.length (entries b1)).
  { destruct H1 as (A1 & A2 & _), H2 as (B1 & B2 & _). unfold entries. rewrite A1, A2, B1, B2, C1, C2.
    rewrite !flat_map_concat_map. generalize (zseq (Z.to_nat (snd d))). intros l. induction l as [|r l IH]; [reflexivity|].
    cbn. rewrite !app_length, IH. f_equal.
    rewrite !flat_map_concat_map. generalize (zseq (Z.to_nat (fst d))). intros l'. induction l' as [|c l' IH']; [reflexivity|].
    cbn. rewrite !app_length, !map_length, IH'. reflexivity. }
  assert (Hgt : fst (fst (score finite eqb src b2')) < fst (fst (score finite eqb src b1'))).
  { rewrite !score_ratio, E1, E2. destruct Hcov as [Hne _].
    destruct (entries b1) as [|v l] eqn:El; [congruence|]. destruct (entries b2) as [|v' l'] eqn:El'; [discriminate|].
    rewrite <- El, <- El' in *. rewrite Hl.
    apply Qlt_shift_div_l; [apply length_pos; rewrite El; discriminate|].
    assert (Pl : 0 < inject_Z (Z.of_nat (List.length (entries b1)))) by (apply length_pos; rewrite El; discriminate).
    setoid_replace (inject_Z (Z.of_nat (List.length (filter finite (entries b2)))) / inject_Z (Z.of_nat (List.length (entries b1))) *
      inject_Z (Z.of_nat (List.length (entries b1)))) with (inject_Z (Z.of_nat (List.length (filter finite (entries b2))))) by (field; lra).
    rewrite <- Zlt_Qlt. lia. }
  assert (Hg : score_geb (score finite eqb src b1') (score finite eqb src b2') = true).
  { unfold score_geb. destruct (score finite eqb src b1') as [[q1 g1] u1], (score finite eqb src b2') as [[q2 g2] u2]. cbn in Hgt.
    destruct (Qeq_bool q1 q2) eqn:E; [apply Qeq_bool_iff in E; lra|].
    apply negb_true_iff. destruct (Qle_bool q1 q2) eqn:E'; [apply Qle_bool_iff in E'; lra|reflexivity]. }
  rewrite Hg in Ea. subst a'. now apply atleast3_moved.
Qed.

Lemma score_refl s : score_geb s s = true.
Proof.
  destruct s as [[q g] u]. unfold score_geb.
  assert (E : Qeq_bool q q = true) by (apply Qeq_bool_iff; reflexivity). rewrite E, Z.eqb_refl. lia.
Qed.

(* transforms that are their own inverse *)
Lemma general_involution mode M d a a' b : 
  (forall x y, ax M (ax M x y) (ay M x y) == x /\ ay M (ax M x y) (ay M x y) == y) ->
  ~ aff_det M == 0 ->
  moved (w_fill W) M d a b -> a_c b = a_c a -> covered finite (entries b) ->
  nearest_general W finite eqb mode mode M d a = Ok a' -> moved (w_fill W) M d a a'.
Proof.
  intros Hinv Hd Hb Hc Hcov H.
  assert (HI : exists I, aff_inv M = Ok I).
  { unfold aff_inv. destruct (Qeq_bool (aff_det M) 0) eqn:E; [apply Qeq_bool_iff in E; contradiction|eauto]. }
  destruct HI as (I & HI). destruct (inv_inv _ _ HI) as (J & HJ & _).
  destruct (general_spec _ _ _ _ _ _ HI H) as (b1' & b2' & M1 & M2 & D1 & D2 & Ea). cbv zeta in Ea.
  assert (EI : forall x y, ax I x y == ax M x y /\ ay I x y == ay M x y).
  { intros x y. destruct (inv_points _ _ HI) as [P1 P2]. destruct (P2 (ax M x y) (ay M x y)) as [A1 A2].
    destruct (Hinv x y) as [B1 B2]. unfold ax, ay in *. rewrite B1, B2 in A1, A2. auto. }
  assert (M2' : moved (w_fill W) M d a b2') by (eapply moved_proper; [exact EI|exact M2]).
  assert (E1 : entries b1' = entries b) by (eapply moved_entries; [exact HI| | |]; eauto; congruence).
  assert (E2 : entries b2' = entries b) by (eapply moved_entries; [exact HI| | |]; eauto; congruence).
  set (src := uniques eqb [] (filter finite (entries a))) in *.
  pose proof (covered_ratio src b1' ltac:(rewrite E1; exact Hcov)) as Hr.
  rewrite best_ge in Ea by (left; exact Hr).
  assert (Es : score finite eqb src b1' = score finite eqb src b2') by (unfold score; now rewrite E1, E2).
  rewrite Es, score_refl in Ea. subst a'. now apply atleast3_moved.
Qed.

(* images without missing values: one of the two directions is returned *)
Lemma general_finite mode M I d a a' : aff_inv M = Ok I ->
  (forall v, finite v = true) -> (0 < fst d)%Z -> (0 < snd d)%Z ->
  match a_c a with Some n => (0 < n)%Z | None => True end ->
  nearest_general W finite eqb mode mode M d a = Ok a' ->
  moved (w_fill W) M d a a' \/ moved (w_fill W) I d a a'.
Proof.
  intros HI Hf Hw Hh Hn H.
  destruct (general_spec _ _ _ _ _ _ HI H) as (b1 & b2 & M1 & M2 & D1 & D2 & Ea). cbv zeta in Ea.
  assert (Hcov : covered finite (entries b1)).
  { assert (Hne : entries b1 <> []).
    { intros E. assert (In (a_pix b1 0 0 0) (entries b1)); [|rewrite E in *; contradiction].
      destruct M1 as (A1 & A2 & _). unfold entries. rewrite A1, A2, D1. apply in_flat_map. exists 0%Z.
      split; [apply zseq_In_Z; lia|]. apply in_flat_map. exists 0%Z. split; [apply zseq_In_Z; lia|].
      apply in_map. apply zseq_In_Z. destruct (a_c a); lia. }
    split; [exact Hne|]. assert (Ef : filter finite (entries b1) = entries b1).
    { generalize (entries b1). intros l. induction l as [|v l IHl]; [reflexivity|]. cbn. rewrite Hf, IHl. reflexivity. }
    rewrite Ef. assert (P : 0 < inject_Z (Z.of_nat (List.length (entries b1)))) by (apply length_pos; destruct (entries b1); [congruence|discriminate]).
    apply Qle_shift_div_l; [exact P|]. lra. }
  pose proof (covered_ratio (uniques eqb [] (filter finite (entries a))) b1 Hcov) as Hr.
  rewrite best_ge in Ea by (left; exact Hr). subst a'.
  destruct (score_geb _ _); [left|right]; now apply atleast3_moved.
Qed.

Hypothesis eqb_ok : forall u v, eqb u v = true <-> u = v.

Lemma uniques_spec : forall l seen, exists u, NoDup u /\ (forall v, In v u <-> In v l /\ ~ In v seen) /\
  Z.of_nat (List.length u) = uniques eqb seen l.
Proof.
  induction l as [|x l IH]; intros seen; cbn [uniques].
  - exists []. split; [constructor|]. split; [cbn; tauto|reflexivity].
  - destruct (existsb (eqb x) seen) eqn:E.
    + apply existsb_exists in E as (y & Hy & Exy). apply eqb_ok in Exy as <-.
      destruct (IH seen) as (u & Hu & Hi & Hn). exists u. split; [exact Hu|]. split; [|exact Hn].
      intros v. rewrite Hi. cbn. split; [tauto|]. intros [[<-|H] H']; [contradiction|tauto].
    + assert (Hx : ~ In x seen).
      { intros H. assert (existsb (eqb x) seen = true); [|congruence]. apply existsb_exists. exists x. split; [exact H|]. now apply eqb_ok. }
      destruct (IH (x :: seen)) as (u & Hu & Hi & Hn). exists (x :: u). split.
      * constructor; [|exact Hu]. rewrite Hi. cbn. tauto.
      * split; [|cbn [List.length]; lia]. intros v. cbn. rewrite Hi. cbn. split.
        -- intros [<-|[H H']]; tauto.
        -- intros [[<-|H] H']; [tauto|]. destruct (eqb x v) eqn:Ev; [apply eqb_ok in Ev; tauto|].
           right. split; [exact H|]. intros [->|G]; [|contradiction].
           assert (eqb v v = true) by now apply eqb_ok. congruence.
Qed.

Lemma uniques_different l n : different l n -> uniques eqb [] l = n.
Proof.
  intros (u & Hu & Hi & <-). destruct (uniques_spec l []) as (u' & Hu' & Hi' & <-). f_equal.
  apply Nat.le_antisymm; apply NoDup_incl_length; try assumption; intros v Hv.
  - apply Hi. apply Hi' in Hv. tauto.
  - apply Hi'. apply Hi in Hv. cbn. tauto.
Qed.

(* with as many finite entries both ways, the direction that keeps the number of
   values better wins *)
Lemma general_values mode M I d a a' b1 b2 n n1 n2 : aff_inv M = Ok I ->
  moved (w_fill W) M d a b1 -> moved (w_fill W) I d a b2 -> a_c b1 = a_c a -> a_c b2 = a_c a ->
  covered finite (entries b1) ->
  List.length (filter finite (entries b2)) = List.length (filter finite (entries b1)) ->
  different (filter finite (entries a)) n ->
  different (filter finite (entries b1)) n1 ->
  different (filter finite (entries b2)) n2 ->
  (Z.abs (n1 - n) <> Z.abs (n2 - n) \/ n1 <> n2)%Z ->
  nearest_general W finite eqb mode mode M d a = Ok a' ->
  if ((Z.abs (n1 - n) <? Z.abs (n2 - n)) || ((Z.abs (n1 - n) =? Z.abs (n2 - n)) && (n2 <? n1)))%Z%bool
  then moved (w_fill W) M d a a' else moved (w_fill W) I d a a'.
Proof.
  intros HI H1 H2 C1 C2 Hcov Hfin Dn D1 D2 Hne H. destruct (inv_inv _ _ HI) as (J & HJ & _).
  destruct (general_spec _ _ _ _ _ _ HI H) as (b1' & b2' & M1 & M2 & K1 & K2 & Ea). cbv zeta in Ea.
  assert (E1 : entries b1' = entries b1) by (eapply moved_entries; [exact HI| | |]; eauto; congruence).
  assert (E2 : entries b2' = entries b2) by (eapply moved_entries; [exact HJ| | |]; eauto; congruence).
  rewrite (uniques_different _ _ Dn) in Ea.
  pose proof (covered_ratio n b1' ltac:(rewrite E1; exact Hcov)) as Hr.
  rewrite best_ge in Ea by (left; exact Hr).
  assert (Hl : List.length (entries b2) = List.length (entries b1)).
  { destruct H1 as (A1 & A2 & _), H2 as (B1 & B2 & _). unfold entries. rewrite A1, A2, B1, B2, C1, C2.
    rewrite !flat_map_concat_map. generalize (zseq (Z.to_nat (snd d))). intros l. induction l as [|r l IH]; [reflexivity|].
    cbn. rewrite !app_length, IH. f_equal.
    rewrite !flat_map_concat_map. generalize (zseq (Z.to_nat (fst d))). intros l'. induction l' as [|c l' IH']; [reflexivity|].
    cbn. rewrite !app_length, !map_length, IH'. reflexivity. }
  assert (Hq : fst (fst (score finite eqb n b2')) = fst (fst (score finite eqb n b1'))).
  { rewrite !score_ratio, E1, E2, Hfin, Hl. destruct (entries b1), (entries b2); try reflexivity; discriminate. }
  assert (S1 : score finite eqb n b1' = (fst (fst (score finite eqb n b1')), - Z.abs (n1 - n), n1)%Z).
  { unfold score. rewrite E1. rewrite (uniques_different _ _ D1). reflexivity. }
  assert (S2 : score finite eqb n b2' = (fst (fst (score finite eqb n b1')), - Z.abs (n2 - n), n2)%Z).
  { rewrite <- Hq. unfold score. rewrite E2. rewrite (uniques_different _ _ D2). reflexivity. }
  rewrite S1, S2 in Ea. unfold score_geb in Ea. cbn [fst] in Ea.
  assert (R : Qeq_bool (fst (fst (score finite eqb n b1'))) (fst (fst (score finite eqb n b1'))) = true)
    by (apply Qeq_bool_iff; reflexivity).
  rewrite R in Ea. clear R S1 S2 Hq Hr. subst a'.
  destruct (- Z.abs (n1 - n) =? - Z.abs (n2 - n))%Z eqn:Eg.
  - assert (Z.abs (n1 - n) <? Z.abs (n2 - n) = false)%Z as -> by lia.
    assert (Z.abs (n1 - n) =? Z.abs (n2 - n) = true)%Z as -> by lia. cbn [orb andb].
    destruct (n2 <=? n1)%Z eqn:En.
    + assert (n2 <? n1 = true)%Z as -> by lia. now apply atleast3_moved.
    + assert (n2 <? n1 = false)%Z as -> by lia. now apply atleast3_moved.
  - assert (Z.abs (n1 - n) =? Z.abs (n2 - n) = false)%Z as -> by lia. rewrite andb_false_l, orb_false_r.
    destruct (- Z.abs (n2 - n) <? - Z.abs (n1 - n))%Z eqn:En.
    + assert (Z.abs (n1 - n) <? Z.abs (n2 - n) = true)%Z as -> by lia. now apply atleast3_moved.
    + assert (Z.abs (n1 - n) <? Z.abs (n2 - n) = false)%Z as -> by lia. now apply atleast3_moved.
Qed.

End General.

(** ** Versions *)

Lemma version_digits : forall s v n rest, all_digits s = true -> parse_digits v s = Some n ->
  version_go (Some v) (s ++ rest) = version_go (Some n) rest.
Proof.
  induction s as [|c s IH]; cbn [all_digits parse_digits append]; intros v n rest Hd Hp; [now injection Hp as ->|].
  apply andb_true_iff in Hd as [Hc Hs]. unfold is_digit in Hc. cbn [version_go].
  destruct (digit_val c) as [k|]; [|discriminate]. now apply IH.
Qed.

Lemma version_number n rest : version_go None (N_str n ++ rest) = version_go (Some n) rest.
Proof.
  pose proof (parse_N_str n) as Hp. pose proof (N_str_digits n) as Hd. destruct (N_str_cons n) as (c & t & E).
  rewrite E in *. cbn [parse_nat] in Hp. cbn [all_digits] in Hd. apply andb_true_iff in Hd as [Hc Ht].
  cbn [append version_go]. destruct (digit_val c) as [k|]; [|discriminate].
  replace (10 * 0 + k)%N with k by lia. now apply version_digits.
Qed.

Lemma version_dotted : forall l, version_tuple (join "." (map N_str l)) = map Z.of_N l.
Proof.
  unfold version_tuple. induction l as [|n l IH]; [reflexivity|]. destruct l as [|m l].
  - cbn [map join]. rewrite <- (app_empty_r_s (N_str n)), version_number. reflexivity.
  - cbn [map join] in *. rewrite version_number. cbn [append version_go].
    change (digit_val ".") with (@None N). cbn iota. f_equal. exact IH.
Qed.

Lemma tuple_older : forall a b, tuple_geb (map Z.of_N a) (map Z.of_N b) = false <-> older a b.
Proof.
  induction a as [|x a IH]; intros [|y b]; cbn [map tuple_geb].
  - split; [discriminate|intros H; inversion H].
  - split; [intros _; constructor|reflexivity].
  - split; [discriminate|intros H; inversion H].
  - destruct (Z.of_N x =? Z.of_N y)%Z eqn:E.
    + assert (x = y) as -> by lia. rewrite IH. split; [now constructor|]. intros H. inversion H; subst; [lia|assumption].
    + split; [intros H; apply older_first; lia|]. intros H. inversion H; subst; lia.
Qed.
