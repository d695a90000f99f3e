(* Lemmas about the geometry model. *)
From Verif Require Import Py PyProofs GeomModel.
From Coq Require Import Morphisms Qpower.
Local Open Scope Q_scope.

Ltac dif E := match goal with |- context [if ?c then _ else _] => destruct c eqn:E end.

(** ** Integers inside Q *)

Lemma injZ_le a b : (a <= b)%Z <-> inject_Z a <= inject_Z b.
Proof. rewrite <- Zle_Qle. tauto. Qed.
Lemma injZ_lt a b : (a < b)%Z <-> inject_Z a < inject_Z b.
Proof. rewrite <- Zlt_Qlt. tauto. Qed.
Lemma injZ_plus a b : inject_Z (a + b) == inject_Z a + inject_Z b.
Proof. rewrite inject_Z_plus. reflexivity. Qed.
Lemma injZ_opp a : inject_Z (- a) == - inject_Z a.
Proof. rewrite inject_Z_opp. reflexivity. Qed.
Lemma injZ_minus a b : inject_Z (a - b) == inject_Z a - inject_Z b.
Proof. unfold Z.sub. rewrite injZ_plus, injZ_opp. reflexivity. Qed.
Lemma injZ_mult a b : inject_Z (a * b) == inject_Z a * inject_Z b.
Proof. rewrite inject_Z_mult. reflexivity. Qed.

Lemma floor_le x : inject_Z (Qfloor x) <= x.
Proof. apply Qfloor_le. Qed.
Lemma floor_gt x : x < inject_Z (Qfloor x) + 1.
Proof. pose proof (Qlt_floor x). rewrite injZ_plus in H. exact H. Qed.
Lemma ceil_ge x : x <= inject_Z (Qceiling x).
Proof. apply Qle_ceiling. Qed.
Lemma ceil_lt x : inject_Z (Qceiling x) < x + 1.
Proof.
  pose proof (Qceiling_lt x) as H. unfold Z.sub in H. rewrite injZ_plus in H.
  change (inject_Z (- (1))) with (-1#1) in H. lra.
Qed.
Lemma ceil_le_iff x n : (Qceiling x <= n)%Z <-> x <= inject_Z n.
Proof.
  split; intros H.
  - apply injZ_le in H. pose proof (ceil_ge x). lra.
  - pose proof (ceil_lt x). assert (inject_Z (Qceiling x) < inject_Z (n + 1)).
    { rewrite injZ_plus. change (inject_Z 1) with 1. lra. }
    apply injZ_lt in H1. lia.
Qed.
Lemma floor_ge_iff x n : (n <= Qfloor x)%Z <-> inject_Z n <= x.
Proof.
  split; intros H.
  - apply injZ_le in H. pose proof (floor_le x). lra.
  - pose proof (floor_gt x). assert (inject_Z n < inject_Z (Qfloor x + 1)).
    { rewrite injZ_plus. change (inject_Z 1) with 1. lra. }
    apply injZ_lt in H1. lia.
Qed.
Lemma floor_eq_iff x n : Qfloor x = n <-> inject_Z n <= x /\ x < inject_Z n + 1.
Proof.
  split.
  - intros <-. split; [apply floor_le | apply floor_gt].
  - intros [H1 H2]. apply Z.le_antisymm.
    + pose proof (floor_le x). assert (inject_Z (Qfloor x) < inject_Z (n + 1)).
      { rewrite injZ_plus. change (inject_Z 1) with 1. lra. }
      apply injZ_lt in H0. lia.
    + apply floor_ge_iff. exact H1.
Qed.
Lemma ceil_eq_iff x n : Qceiling x = n <-> x <= inject_Z n /\ inject_Z n < x + 1.
Proof.
  split.
  - intros <-. split; [apply ceil_ge | apply ceil_lt].
  - intros [H1 H2]. apply Z.le_antisymm.
    + apply ceil_le_iff. exact H1.
    + pose proof (ceil_ge x). assert (inject_Z n < inject_Z (Qceiling x + 1)).
      { rewrite injZ_plus. change (inject_Z 1) with 1. lra. }
      apply injZ_lt in H0. lia.
Qed.
Lemma floor_Z n : Qfloor (inject_Z n) = n.
Proof. apply Qfloor_Z. Qed.
Lemma ceil_Z n : Qceiling (inject_Z n) = n.
Proof. apply Qceiling_Z. Qed.

(** ** Four-way minima and maxima *)

Lemma Qmin4_spec a b c d :
  Qmin4 a b c d <= a /\ Qmin4 a b c d <= b /\ Qmin4 a b c d <= c /\ Qmin4 a b c d <= d.
Proof.
  unfold Qmin4.
  pose proof (Q.le_min_l (Qmin a b) (Qmin c d)).
  pose proof (Q.le_min_r (Qmin a b) (Qmin c d)).
  pose proof (Q.le_min_l a b). pose proof (Q.le_min_r a b).
  pose proof (Q.le_min_l c d). pose proof (Q.le_min_r c d).
  repeat split; lra.
Qed.
Lemma Qmax4_spec a b c d :
  a <= Qmax4 a b c d /\ b <= Qmax4 a b c d /\ c <= Qmax4 a b c d /\ d <= Qmax4 a b c d.
Proof.
  unfold Qmax4.
  pose proof (Q.le_max_l (Qmax a b) (Qmax c d)).
  pose proof (Q.le_max_r (Qmax a b) (Qmax c d)).
  pose proof (Q.le_max_l a b). pose proof (Q.le_max_r a b).
  pose proof (Q.le_max_l c d). pose proof (Q.le_max_r c d).
  repeat split; lra.
Qed.
Lemma Qmax4_le a b c d m :
  a <= m -> b <= m -> c <= m -> d <= m -> Qmax4 a b c d <= m.
Proof.
  intros. unfold Qmax4. repeat apply Q.max_lub; assumption.
Qed.
Lemma Qmin4_ge a b c d m :
  m <= a -> m <= b -> m <= c -> m <= d -> m <= Qmin4 a b c d.
Proof.
  intros. unfold Qmin4. repeat apply Q.min_glb; assumption.
Qed.

(* a linear function on a box lies between its corner values *)
Lemma lin_box p q c x0 x1 y0 y1 x y :
  x0 <= x -> x <= x1 -> y0 <= y -> y <= y1 ->
  let f := fun x y => p * x + q * y + c in
  Qmin4 (f x0 y0) (f x0 y1) (f x1 y1) (f x1 y0) <= f x y /\
  f x y <= Qmax4 (f x0 y0) (f x0 y1) (f x1 y1) (f x1 y0).
Proof.
  intros Hx0 Hx1 Hy0 Hy1 f.
  pose proof (Qmin4_spec (f x0 y0) (f x0 y1) (f x1 y1) (f x1 y0)) as (A1 & A2 & A3 & A4).
  pose proof (Qmax4_spec (f x0 y0) (f x0 y1) (f x1 y1) (f x1 y0)) as (B1 & B2 & B3 & B4).
  set (m := Qmin4 _ _ _ _) in *. set (M := Qmax4 _ _ _ _) in *.
  unfold f in *.
  destruct (Qlt_le_dec p 0) as [Hp|Hp]; destruct (Qlt_le_dec q 0) as [Hq|Hq].
  - assert (p * x1 <= p * x) by nra. assert (p * x <= p * x0) by nra.
    assert (q * y1 <= q * y) by nra. assert (q * y <= q * y0) by nra. split; lra.
  - assert (p * x1 <= p * x) by nra. assert (p * x <= p * x0) by nra.
    assert (q * y0 <= q * y) by nra. assert (q * y <= q * y1) by nra. split; lra.
  - assert (p * x0 <= p * x) by nra. assert (p * x <= p * x1) by nra.
    assert (q * y1 <= q * y) by nra. assert (q * y <= q * y0) by nra. split; lra.
  - assert (p * x0 <= p * x) by nra. assert (p * x <= p * x1) by nra.
    assert (q * y0 <= q * y) by nra. assert (q * y <= q * y1) by nra. split; lra.
Qed.

(** ** Affine maps *)

Lemma ax_mul A B x y : ax (aff_mul A B) x y == ax A (ax B x y) (ay B x y).
Proof. unfold ax, ay, aff_mul; cbn. ring. Qed.
Lemma ay_mul A B x y : ay (aff_mul A B) x y == ay A (ax B x y) (ay B x y).
Proof. unfold ax, ay, aff_mul; cbn. ring. Qed.
Lemma ax_id x y : ax aff_id x y == x.
Proof. unfold ax, aff_id; cbn. ring. Qed.
Lemma ay_id x y : ay aff_id x y == y.
Proof. unfold ay, aff_id; cbn. ring. Qed.
Lemma ax_translate tx ty x y : ax (aff_translate tx ty) x y == x + tx.
Proof. unfold ax, aff_translate; cbn. ring. Qed.
Lemma ay_translate tx ty x y : ay (aff_translate tx ty) x y == y + ty.
Proof. unfold ay, aff_translate; cbn. ring. Qed.
Lemma ax_scale sx sy x y : ax (aff_scale sx sy) x y == sx * x.
Proof. unfold ax, aff_scale; cbn. ring. Qed.
Lemma ay_scale sx sy x y : ay (aff_scale sx sy) x y == sy * y.
Proof. unfold ay, aff_scale; cbn. ring. Qed.

#[global] Instance ax_proper M : Proper (Qeq ==> Qeq ==> Qeq) (ax M).
Proof. intros x x' Ex y y' Ey. unfold ax. rewrite Ex, Ey. reflexivity. Qed.
#[global] Instance ay_proper M : Proper (Qeq ==> Qeq ==> Qeq) (ay M).
Proof. intros x x' Ex y y' Ey. unfold ay. rewrite Ex, Ey. reflexivity. Qed.

Lemma inv_left M x y : ~ aff_det M == 0 ->
  ax (aff_inv_raw M) (ax M x y) (ay M x y) == x /\
  ay (aff_inv_raw M) (ax M x y) (ay M x y) == y.
Proof.
  intros Hd. unfold ax, ay, aff_inv_raw, aff_det in *; cbn. split; field; assumption.
Qed.
Lemma inv_right M x y : ~ aff_det M == 0 ->
  ax M (ax (aff_inv_raw M) x y) (ay (aff_inv_raw M) x y) == x /\
  ay M (ax (aff_inv_raw M) x y) (ay (aff_inv_raw M) x y) == y.
Proof.
  intros Hd. unfold ax, ay, aff_inv_raw, aff_det in *; cbn. split; field; assumption.
Qed.
Lemma aff_inv_ok M I : aff_inv M = Ok I -> I = aff_inv_raw M /\ ~ aff_det M == 0.
Proof.
  unfold aff_inv. destruct (Qeq_bool (aff_det M) 0) eqn:E; [discriminate|].
  intros H; injection H as <-. split; [reflexivity|]. apply Qeq_bool_neq. exact E.
Qed.

(** ** Automatic sizes *)

Lemma ax_box M x0 x1 y0 y1 x y :
  x0 <= x -> x <= x1 -> y0 <= y -> y <= y1 ->
  Qmin4 (ax M x0 y0) (ax M x0 y1) (ax M x1 y1) (ax M x1 y0) <= ax M x y /\
  ax M x y <= Qmax4 (ax M x0 y0) (ax M x0 y1) (ax M x1 y1) (ax M x1 y0).
Proof. intros. apply (lin_box (a11 M) (a12 M) (b1 M)); assumption. Qed.
Lemma ay_box M x0 x1 y0 y1 x y :
  x0 <= x -> x <= x1 -> y0 <= y -> y <= y1 ->
  Qmin4 (ay M x0 y0) (ay M x0 y1) (ay M x1 y1) (ay M x1 y0) <= ay M x y /\
  ay M x y <= Qmax4 (ay M x0 y0) (ay M x0 y1) (ay M x1 y1) (ay M x1 y0).
Proof. intros. apply (lin_box (a21 M) (a22 M) (b2 M)); assumption. Qed.

Lemma auto_dsize_covers M w h x y :
  0 <= x <= inject_Z w -> 0 <= y <= inject_Z h ->
  ax M x y <= inject_Z (fst (auto_dsize M (w, h))) /\
  ay M x y <= inject_Z (snd (auto_dsize M (w, h))).
Proof.
  intros [Hx0 Hx1] [Hy0 Hy1]. unfold auto_dsize. cbn [fst snd].
  pose proof (ax_box M _ _ _ _ x y Hx0 Hx1 Hy0 Hy1) as [_ A].
  pose proof (ay_box M _ _ _ _ x y Hx0 Hx1 Hy0 Hy1) as [_ B].
  match goal with |- _ <= inject_Z (Qceiling ?p) /\ _ <= inject_Z (Qceiling ?q) =>
    pose proof (ceil_ge p); pose proof (ceil_ge q);
    assert (Qmax4 (ax M 0 0) (ax M 0 (inject_Z h)) (ax M (inject_Z w) (inject_Z h)) (ax M (inject_Z w) 0) <= p);
    [|assert (Qmax4 (ay M 0 0) (ay M 0 (inject_Z h)) (ay M (inject_Z w) (inject_Z h)) (ay M (inject_Z w) 0) <= q)]
  end.
  - apply Qmax4_le;
      destruct (Qmax4_spec (ax M 0 0) (ax M (inject_Z w) 0) (ax M 0 (inject_Z h)) (ax M (inject_Z w) (inject_Z h)))
      as (?&?&?&?); lra.
  - apply Qmax4_le;
      destruct (Qmax4_spec (ay M 0 0) (ay M (inject_Z w) 0) (ay M 0 (inject_Z h)) (ay M (inject_Z w) (inject_Z h)))
      as (?&?&?&?); lra.
  - split; lra.
Qed.

Lemma auto_dsize_least M w h m n :
  (0 <= w)%Z -> (0 <= h)%Z ->
  (forall x y, 0 <= x <= inject_Z w -> 0 <= y <= inject_Z h ->
     ax M x y <= inject_Z m /\ ay M x y <= inject_Z n) ->
  (fst (auto_dsize M (w, h)) <= m)%Z /\ (snd (auto_dsize M (w, h)) <= n)%Z.
Proof.
  intros Hw Hh H.
  assert (Qw : 0 <= inject_Z w) by (apply (proj1 (injZ_le 0 w)); exact Hw).
  assert (Qh : 0 <= inject_Z h) by (apply (proj1 (injZ_le 0 h)); exact Hh).
  unfold auto_dsize; cbn [fst snd].
  split; apply ceil_le_iff; apply Qmax4_le; apply H; lra.
Qed.

(** ** Overview levels *)

Lemma pow2_pos k : 0 < pow2 k.
Proof.
  unfold pow2. assert (0 <= Qpower (2#1) k) by (apply Qpower_pos; discriminate).
  assert (~ Qpower (2#1) k == 0) by (apply Qpower_not_0; discriminate).
  apply Qle_lteq in H. destruct H as [H|H]; [exact H|]. symmetry in H. contradiction.
Qed.
Lemma pow2_plus a b : pow2 (a + b) == pow2 a * pow2 b.
Proof. unfold pow2. apply Qpower_plus. discriminate. Qed.
Lemma pow2_0 : pow2 0 == 1.
Proof. reflexivity. Qed.
Lemma pow2_Z k : (0 <= k)%Z -> pow2 k == inject_Z (2 ^ k).
Proof. intros H. unfold pow2. change (2#1) with (inject_Z 2). rewrite Zpower_Qpower by exact H. reflexivity. Qed.
Lemma pow2_ge1 k : (0 <= k)%Z -> 1 <= pow2 k.
Proof.
  intros H. rewrite (pow2_Z k H). change 1 with (inject_Z 1). apply (proj1 (injZ_le _ _)).
  assert (0 < 2 ^ k)%Z by (apply Z.pow_pos_nonneg; lia). lia.
Qed.

#[global] Instance Qdiv_proper : Proper (Qeq ==> Qeq ==> Qeq) Qdiv.
Proof. intros a a' Ea b b' Eb. unfold Qdiv. rewrite Ea, Eb. reflexivity. Qed.

Lemma div_le_iff a b c : 0 < c -> (a / c <= b <-> a <= b * c).
Proof.
  intros Hc. split; intros H.
  - apply (Qmult_le_r _ _ c Hc) in H.
    setoid_replace (a / c * c) with a in H by (field; lra). exact H.
  - apply (Qmult_le_r _ _ c Hc).
    setoid_replace (a / c * c) with a by (field; lra). exact H.
Qed.
Lemma le_div_iff a b c : 0 < c -> (b <= a / c <-> b * c <= a).
Proof.
  intros Hc. split; intros H.
  - apply (Qmult_le_r _ _ c Hc) in H.
    setoid_replace (a / c * c) with a in H by (field; lra). exact H.
  - apply (Qmult_le_r _ _ c Hc).
    setoid_replace (a / c * c) with a by (field; lra). exact H.
Qed.

Lemma overview_len_plus a b n : (0 <= a)%Z -> (0 <= b)%Z ->
  overview_len b (overview_len a n) = overview_len (a + b) n.
Proof.
  intros Ha Hb. unfold overview_len.
  pose proof (pow2_pos a) as Pa. pose proof (pow2_pos b) as Pb.
  apply Z.le_antisymm; apply ceil_le_iff.
  - apply div_le_iff; [exact Pb|].
    rewrite (pow2_Z b Hb). rewrite <- injZ_mult. rewrite <- injZ_le. apply ceil_le_iff.
    apply div_le_iff; [exact Pa|].
    rewrite injZ_mult, <- (pow2_Z b Hb).
    assert (inject_Z n <= inject_Z (Qceiling (inject_Z n / pow2 (a + b))) * pow2 (a + b)).
    { apply div_le_iff; [apply pow2_pos|]. apply ceil_ge. }
    rewrite pow2_plus in H at 2.
    setoid_replace (inject_Z (Qceiling (inject_Z n / pow2 (a + b))) * pow2 b * pow2 a)
      with (inject_Z (Qceiling (inject_Z n / pow2 (a + b))) * (pow2 a * pow2 b)) by ring.
    exact H.
  - apply div_le_iff; [apply pow2_pos|]. rewrite pow2_plus.
    set (p := Qceiling (inject_Z n / pow2 a)).
    assert (H1 : inject_Z n <= inject_Z p * pow2 a).
    { apply div_le_iff; [exact Pa|]. apply ceil_ge. }
    assert (H2 : inject_Z p <= inject_Z (Qceiling (inject_Z p / pow2 b)) * pow2 b).
    { apply div_le_iff; [exact Pb|]. apply ceil_ge. }
    set (q := inject_Z (Qceiling _)) in *. nra.
Qed.

Lemma overview_len_ceil k n : (0 <= k)%Z ->
  overview_len k n = (- ((- n) / 2 ^ k))%Z.
Proof.
  intros Hk. unfold overview_len.
  assert (P : (0 < 2 ^ k)%Z) by (apply Z.pow_pos_nonneg; lia).
  assert (PQ : 0 < inject_Z (2 ^ k)) by (apply (proj1 (injZ_lt 0 _)); exact P).
  apply ceil_eq_iff.
  pose proof (Z.div_mod (- n) (2 ^ k)) as D. pose proof (Z.mod_pos_bound (-n) (2^k) P) as B.
  set (q := ((- n) / 2 ^ k)%Z) in *. set (r := ((- n) mod 2 ^ k)%Z) in *.
  rewrite (pow2_Z k Hk).
  assert (E : inject_Z n == inject_Z (- q) * inject_Z (2^k) - inject_Z r).
  { rewrite <- injZ_mult, <- injZ_minus. assert (E0 : (n = - q * 2 ^ k - r)%Z) by lia. rewrite E0 at 1. reflexivity. }
  assert (R0 : 0 <= inject_Z r) by (apply (proj1 (injZ_le 0 _)); lia).
  assert (R1 : inject_Z r < inject_Z (2^k)) by (apply (proj1 (injZ_lt _ _)); lia).
  split.
  - apply div_le_iff; [exact PQ|]. rewrite E. lra.
  - assert (inject_Z (-q) - 1 < inject_Z n / inject_Z (2^k)).
    { apply Qlt_shift_div_l; [exact PQ|]. rewrite E. lra. }
    lra.
Qed.

(** ** Slices *)

Lemma wrap_clip_nonneg D a b i : (0 <= a)%Z -> (0 <= b)%Z ->
  wrap_clip D (Some a, Some b) = Ok i ->
  i = (Z.max 0 (Z.min a D), Z.max 0 (Z.min b D)).
Proof.
  intros Ha Hb. unfold wrap_clip. cbv beta zeta. cbn [fst snd].
  destruct (a <? 0)%Z eqn:Ea; [lia|]. destruct (b <? 0)%Z eqn:Eb; [lia|].
  dif E'; [discriminate|]. intros E; injection E as <-. reflexivity.
Qed.

Lemma wrap_clip_bounds D s i : (0 <= D)%Z -> wrap_clip D s = Ok i ->
  (0 <= fst i)%Z /\ (fst i <= snd i)%Z /\ (snd i <= D)%Z.
Proof.
  intros HD. unfold wrap_clip. cbv beta zeta. destruct s as [[a|] [b|]]; cbn [fst snd];
  dif E; try discriminate; intros H; injection H as <-; cbn [fst snd] in *; lia.
Qed.

(* a slice within the axis is kept as it is *)
Lemma wrap_clip_id D a b : (0 <= a)%Z -> (a <= b)%Z -> (b <= D)%Z ->
  wrap_clip D (Some a, Some b) = Ok (a, b).
Proof.
  intros Ha Hab Hb. unfold wrap_clip. cbv beta zeta. cbn [fst snd].
  destruct (a <? 0)%Z eqn:Ea; [lia|]. destruct (b <? 0)%Z eqn:Eb; [lia|].
  rewrite !Z.min_l, !Z.max_r by lia.
  destruct (b <? a)%Z eqn:E; [lia|]. reflexivity.
Qed.

Lemma wrap_clip_full D : (0 <= D)%Z -> wrap_clip D (None, None) = Ok (0%Z, D).
Proof. intros H. unfold wrap_clip. cbv beta zeta. cbn [fst snd]. destruct (D <? 0)%Z eqn:E; [lia|reflexivity]. Qed.

(** ** Crop below warp, positive axis aligned *)

Lemma ceil_nonneg x : 0 <= x -> (0 <= Qceiling x)%Z.
Proof.
  intros H. pose proof (ceil_ge x). apply (proj2 (injZ_le 0 _)).
  change (inject_Z 0) with 0. lra.
Qed.

Lemma fast_axis_pad_nonneg s t r :
  (0 <= (if (Z.max (snd r - fst r) 0 =? 0)%Z then 0%Z
         else Qceiling (Qmax ((inject_Z (snd r) - t) / s - (inject_Z (fst r) - t) / s) 0
                        / inject_Z (Z.max (snd r - fst r) 0))))%Z.
Proof.
  dif E; [lia|]. apply ceil_nonneg.
  assert (P : 0 < inject_Z (Z.max (snd r - fst r) 0)) by (apply (proj1 (injZ_lt 0 _)); lia).
  apply le_div_iff; [exact P|].
  match goal with |- _ <= Qmax ?p 0 => pose proof (Q.le_max_r p 0) end. lra.
Qed.

Lemma fast_axis_covers s t n r u :
  0 < s -> 0 <= u -> u <= inject_Z n ->
  inject_Z (fst r) <= s * u + t -> s * u + t <= inject_Z (snd r) ->
  let '((x0, x1), off) := fast_axis s t n r in
  inject_Z x0 <= u /\ u <= inject_Z x1 /\
  s * (u - inject_Z x0) + off == (s * u + t) - inject_Z (fst r).
Proof.
  intros Hs Hu0 Hun Hr0 Hr1. unfold fast_axis.
  set (pad := if (Z.max (snd r - fst r) 0 =? 0)%Z then _ else _).
  assert (Hpad : (0 <= pad)%Z) by apply fast_axis_pad_nonneg.
  clearbody pad.
  set (x0f := (inject_Z (fst r) - t) / s).
  set (x1f := (inject_Z (snd r) - t) / s).
  assert (H0 : x0f <= u). { apply div_le_iff; [exact Hs|]. lra. }
  assert (H1 : u <= x1f). { apply le_div_iff; [exact Hs|]. lra. }
  set (x0q := Z.max (Qfloor x0f) 0). set (x1q := Z.min (Qceiling x1f) n).
  assert (A0 : inject_Z x0q <= u).
  { unfold x0q. destruct (Z.max_spec (Qfloor x0f) 0) as [[_ ->]|[_ ->]].
    - exact Hu0.
    - pose proof (floor_le x0f). lra. }
  assert (A1 : u <= inject_Z (Z.min (x1q + pad) n)).
  { destruct (Z.min_spec (x1q + pad) n) as [[_ ->]|[_ ->]]; [|exact Hun].
    apply Qle_trans with (inject_Z x1q).
    - unfold x1q. destruct (Z.min_spec (Qceiling x1f) n) as [[_ ->]|[_ ->]]; [|exact Hun].
      pose proof (ceil_ge x1f). lra.
    - apply (proj1 (injZ_le _ _)). lia. }
  split; [|split].
  - apply Qle_trans with (inject_Z x0q); [|exact A0]. apply (proj1 (injZ_le _ _)). lia.
  - exact A1.
  - ring.
Qed.

(* the slice handed to crop() never raises and still covers the region *)
Lemma fast_axis_slice s t n r : (0 <= n)%Z -> 0 < s -> (fst r <= snd r)%Z ->
  let '((x0, x1), _) := fast_axis s t n r in
  exists a b, wrap_clip n (Some x0, Some x1) = Ok (a, b) /\
    (0 <= x0)%Z /\ a = Z.min x0 n /\
    (forall u, inject_Z x0 <= u -> u <= inject_Z x1 -> 0 <= u ->
       inject_Z a <= u /\ u <= inject_Z b).
Proof.
  intros Hn Hs Hr. unfold fast_axis.
  set (pad := if (Z.max (snd r - fst r) 0 =? 0)%Z then _ else _).
  assert (Hpad : (0 <= pad)%Z) by apply fast_axis_pad_nonneg.
  clearbody pad.
  set (x0f := (inject_Z (fst r) - t) / s).
  set (x1f := (inject_Z (snd r) - t) / s).
  assert (H01 : x0f <= x1f).
  { apply div_le_iff; [exact Hs|]. unfold x1f.
    setoid_replace ((inject_Z (snd r) - t) / s * s) with (inject_Z (snd r) - t) by (field; lra).
    apply (proj1 (injZ_le _ _)) in Hr. lra. }
  assert (Hfc : (Qfloor x0f <= Qceiling x1f)%Z).
  { apply (proj2 (injZ_le _ _)). pose proof (floor_le x0f). pose proof (ceil_ge x1f). lra. }
  set (f0 := Qfloor x0f) in *. set (c1 := Qceiling x1f) in *. clearbody f0 c1.
  set (x0 := (Z.max f0 0 - Z.min (Z.max f0 0) 1)%Z).
  set (x1 := Z.min (Z.min c1 n + pad) n).
  assert (X0 : (0 <= x0)%Z) by lia.
  assert (X1 : (x1 <= n)%Z) by lia.
  unfold wrap_clip. cbv beta zeta. cbn [fst snd].
  destruct (x0 <? 0)%Z eqn:E0; [lia|].
  assert (Hx0 : (x1 < 0 -> x0 = 0)%Z) by lia.
  assert (Hx1 : (0 <= x1 -> Z.min x0 n <= x1)%Z) by lia.
  clearbody x0 x1.
  destruct (x1 <? 0)%Z eqn:E1.
  - dif E2; [lia|].
    eexists; eexists; split; [reflexivity|]. split; [exact X0|]. split; [lia|].
    intros u U0 U1 U2. exfalso.
    assert (inject_Z x1 < inject_Z 0) by (apply (proj1 (injZ_lt _ _)); lia).
    change (inject_Z 0) with 0 in H. lra.
  - dif E2; [lia|].
    eexists; eexists; split; [reflexivity|]. split; [exact X0|]. split; [lia|].
    intros u U0 U1 U2. split.
    + apply Qle_trans with (inject_Z x0); [|exact U0]. apply (proj1 (injZ_le _ _)). lia.
    + apply Qle_trans with (inject_Z x1); [exact U1|]. apply (proj1 (injZ_le _ _)). lia.
Qed.

(** ** Crop below warp, general case *)

Lemma swap_warp_after_crop_covers ys xs M ysl xsl T u v :
  swap_warp_after_crop ys xs M = Ok (ysl, xsl, T) ->
  0 <= u -> 0 <= v ->
  inject_Z (fst xs) <= ax M u v -> ax M u v <= inject_Z (snd xs) ->
  inject_Z (fst ys) <= ay M u v -> ay M u v <= inject_Z (snd ys) ->
  (inject_Z (fst xsl) <= u /\ u <= inject_Z (snd xsl)) /\
  (inject_Z (fst ysl) <= v /\ v <= inject_Z (snd ysl)).
Proof.
  unfold swap_warp_after_crop.
  destruct (aff_inv M) as [I|e] eqn:EI; cbn [bind]; [|discriminate].
  apply aff_inv_ok in EI. destruct EI as [-> Hd].
  intros H Hu Hv Hx0 Hx1 Hy0 Hy1. injection H as <- <- _.
  cbn [fst snd].
  destruct (inv_left M u v Hd) as [Eu Ev].
  set (I := aff_inv_raw M) in *.
  pose proof (ax_box I _ _ _ _ _ _ Hx0 Hx1 Hy0 Hy1) as [A1 A2].
  pose proof (ay_box I _ _ _ _ _ _ Hx0 Hx1 Hy0 Hy1) as [B1 B2].
  rewrite Eu in A1, A2. rewrite Ev in B1, B2. clear Eu Ev.
  match type of A1 with ?m <= _ => set (mx := m) in * end.
  match type of A2 with _ <= ?m => set (Mx := m) in * end.
  match type of B1 with ?m <= _ => set (my := m) in * end.
  match type of B2 with _ <= ?m => set (My := m) in * end.
  clearbody mx Mx my My.
  assert (L : forall m w, m <= w -> 0 <= w -> inject_Z (Z.max 0 (Qfloor m)) <= w).
  { intros m w Hm Hw. destruct (Z.max_spec 0 (Qfloor m)) as [[_ ->]|[_ ->]]; [|exact Hw].
    pose proof (floor_le m). lra. }
  assert (L2 : forall m w, w <= m -> w <= inject_Z (Z.max 0 (Qceiling m))).
  { intros m w Hm. apply Qle_trans with (inject_Z (Qceiling m)).
    - pose proof (ceil_ge m). lra.
    - apply (proj1 (injZ_le _ _)). lia. }
  pose proof (L mx u A1 Hu) as Lx. pose proof (L my v B1 Hv) as Ly.
  pose proof (L2 Mx u A2) as Rx. pose proof (L2 My v B2) as Ry.
  assert (P : forall lo hi w o p, inject_Z (Z.max 0 (Qfloor lo)) <= w -> w <= inject_Z (Z.max 0 (Qceiling hi)) ->
     (0 <= o)%Z -> p = (if (o =? 0)%Z then 0%Z else
        Qceiling (inject_Z (Z.max 0 (Qceiling hi) - Z.max 0 (Qfloor lo)) / inject_Z o)) ->
     inject_Z (Z.max 0 (Qfloor lo) - Z.min (Z.max 0 (Qfloor lo)) 1) <= w /\
     w <= inject_Z (Z.max 0 (Qceiling hi) + p)).
  { intros lo hi w o p W1 W2 Ho ->.
    assert (Hc : (Z.max 0 (Qfloor lo) <= Z.max 0 (Qceiling hi))%Z).
    { apply (proj2 (injZ_le _ _)). lra. }
    split.
    - eapply Qle_trans; [|exact W1]. apply (proj1 (injZ_le _ _)). lia.
    - eapply Qle_trans; [exact W2|]. apply (proj1 (injZ_le _ _)).
      destruct (o =? 0)%Z eqn:Eo; [lia|].
      assert (0 <= Qceiling (inject_Z (Z.max 0 (Qceiling hi) - Z.max 0 (Qfloor lo)) / inject_Z o))%Z.
      { apply ceil_nonneg. apply le_div_iff.
        - apply (proj1 (injZ_lt 0 _)). lia.
        - setoid_replace (0 * inject_Z o) with (inject_Z 0) by (cbn; ring).
          apply (proj1 (injZ_le _ _)). lia. }
      lia. }
  assert (Wx : (0 <= snd xs - fst xs)%Z).
  { assert (fst xs <= snd xs)%Z; [|lia]. apply (proj2 (injZ_le _ _)). lra. }
  assert (Wy : (0 <= snd ys - fst ys)%Z).
  { assert (fst ys <= snd ys)%Z; [|lia]. apply (proj2 (injZ_le _ _)). lra. }
  split; [apply (P mx Mx u _ _ Lx Rx Wx eq_refl) | apply (P my My v _ _ Ly Ry Wy eq_refl)].
Qed.

Lemma swap_warp_after_crop_residual ys xs M ysl xsl T u v :
  swap_warp_after_crop ys xs M = Ok (ysl, xsl, T) ->
  ax T (u - inject_Z (fst xsl)) (v - inject_Z (fst ysl)) == ax M u v - inject_Z (fst xs) /\
  ay T (u - inject_Z (fst xsl)) (v - inject_Z (fst ysl)) == ay M u v - inject_Z (fst ys).
Proof.
  unfold swap_warp_after_crop.
  destruct (aff_inv M) as [I|e] eqn:EI; cbn [bind]; [|discriminate].
  intros H. injection H as <- <- <-. cbn [fst snd].
  rewrite !ax_mul, !ay_mul, !ax_translate, !ay_translate, !injZ_opp, !injZ_minus.
  split; unfold ax, ay; ring.
Qed.

Lemma swap_warp_after_crop_slices ys xs M ysl xsl T :
  (fst xs <= snd xs)%Z -> (fst ys <= snd ys)%Z ->
  swap_warp_after_crop ys xs M = Ok (ysl, xsl, T) ->
  (0 <= fst xsl <= snd xsl)%Z /\ (0 <= fst ysl <= snd ysl)%Z.
Proof.
  intros Hx Hy. unfold swap_warp_after_crop.
  destruct (aff_inv M) as [I|e] eqn:EI; cbn [bind]; [|discriminate].
  intros H. injection H as <- <- _. cbn [fst snd].
  assert (P : forall lo hi o, lo <= hi -> (0 <= o)%Z ->
    (0 <= Z.max 0 (Qfloor lo) - Z.min (Z.max 0 (Qfloor lo)) 1 <=
      Z.max 0 (Qceiling hi) + (if (o =? 0)%Z then 0%Z else
        Qceiling (inject_Z (Z.max 0 (Qceiling hi) - Z.max 0 (Qfloor lo)) / inject_Z o)))%Z).
  { intros lo hi o Hlh Ho.
    assert (Hc : (Qfloor lo <= Qceiling hi)%Z).
    { apply (proj2 (injZ_le _ _)). pose proof (floor_le lo). pose proof (ceil_ge hi). lra. }
    destruct (o =? 0)%Z eqn:Eo; [lia|].
    assert (0 <= Qceiling (inject_Z (Z.max 0 (Qceiling hi) - Z.max 0 (Qfloor lo)) / inject_Z o))%Z.
    { apply ceil_nonneg. apply le_div_iff.
      - apply (proj1 (injZ_lt 0 _)). lia.
      - setoid_replace (0 * inject_Z o) with (inject_Z 0) by (cbn; ring).
        apply (proj1 (injZ_le _ _)). lia. }
    lia. }
  assert (Q4 : forall a b c d, Qmin4 a b c d <= Qmax4 a b c d).
  { intros. destruct (Qmin4_spec a b c d) as (?&_). destruct (Qmax4_spec a b c d) as (?&_). lra. }
  split; apply P; try apply Q4; lia.
Qed.

(** ** Overview below crop *)

Lemma overview_crop_axis_spec k r n : (0 <= k)%Z ->
  (0 <= fst r)%Z -> (fst r <= snd r)%Z -> (snd r <= n)%Z ->
  let '((q0, q1), off) := overview_crop_axis k r in
  (0 <= q0 <= q1)%Z /\ (q1 <= overview_len k n)%Z /\
  -(1) < off /\ off <= 0 /\
  (* a source coordinate u of the region is covered, and ends up at (u - r0)/2^k *)
  (forall u, inject_Z (fst r) <= u -> u <= inject_Z (snd r) ->
     inject_Z q0 <= u / pow2 k /\ u / pow2 k <= inject_Z q1 /\
     (u / pow2 k - inject_Z q0) + off == (u - inject_Z (fst r)) / pow2 k).
Proof.
  intros Hk H0 H1 H2. unfold overview_crop_axis.
  pose proof (pow2_pos k) as P.
  assert (R0 : 0 <= inject_Z (fst r)) by (apply (proj1 (injZ_le 0 _)); exact H0).
  assert (R1 : inject_Z (fst r) <= inject_Z (snd r)) by (apply (proj1 (injZ_le _ _)); exact H1).
  assert (R2 : inject_Z (snd r) <= inject_Z n) by (apply (proj1 (injZ_le _ _)); exact H2).
  set (lo := inject_Z (fst r) / pow2 k). set (hi := inject_Z (snd r) / pow2 k).
  assert (L0 : 0 <= lo). { apply le_div_iff; [exact P|]. lra. }
  assert (Mono : forall a b, a <= b -> a / pow2 k <= b / pow2 k).
  { intros a b Hab. apply div_le_iff; [exact P|].
    setoid_replace (b / pow2 k * pow2 k) with b by (field; lra). exact Hab. }
  assert (L1 : lo <= hi) by (apply Mono; exact R1).
  assert (F : (0 <= Qfloor lo)%Z) by (apply floor_ge_iff; exact L0).
  assert (FC : (Qfloor lo <= Qceiling hi)%Z).
  { apply (proj2 (injZ_le _ _)). pose proof (floor_le lo). pose proof (ceil_ge hi). lra. }
  assert (C : (Qceiling hi <= overview_len k n)%Z).
  { apply ceil_le_iff. unfold overview_len. eapply Qle_trans; [|apply ceil_ge]. apply Mono. exact R2. }
  rewrite !Z.max_r by lia.
  pose proof (floor_le lo). pose proof (floor_gt lo). pose proof (ceil_ge hi).
  split; [lia|]. split; [exact C|]. split; [lra|]. split; [lra|].
  intros u U0 U1. apply Mono in U0. apply Mono in U1. fold lo in U0. fold hi in U1.
  split; [lra|]. split; [lra|]. unfold lo. field. lra.
Qed.

(** ** Padded crops *)

Lemma embed_axis_spec D low high pad d0 d1 e0 e1 :
  (0 <= D)%Z -> (0 <= pad)%Z -> embed_axis D low high pad = Ok ((d0, d1), (e0, e1)) ->
  (0 <= d0 <= d1)%Z /\ (d1 <= D)%Z /\ (0 <= e0)%Z /\ (0 <= e1)%Z /\
  (d1 - d0 + e0 + e1 = (high + pad) - (low - pad))%Z /\
  (forall p, (0 <= p < (high + pad) - (low - pad))%Z ->
     let z := (low - pad + p)%Z in
     ((0 <= z < D)%Z -> (0 <= p - e0 < d1 - d0)%Z /\ (d0 + (p - e0) = z)%Z) /\
     (~ (0 <= z < D)%Z -> ~ (0 <= p - e0 < d1 - d0)%Z)).
Proof.
  intros HD Hp. unfold embed_axis. dif E; [discriminate|].
  intros H; injection H as <- <- <- <-.
  repeat split; cbv zeta in *; lia.
Qed.

Lemma embed_axis_total D low high pad : (low <= high)%Z ->
  exists d e, embed_axis D low high pad = Ok (d, e).
Proof. intros H. unfold embed_axis. dif E; [lia|]. eauto. Qed.

(** ** Nearest path *)

Lemma nearest_src_spec s t n i k : 0 < s ->
  nearest_src s t n i = Some k <->
  (0 <= k < n)%Z /\ s * inject_Z k + t <= inject_Z i /\ inject_Z i < s * (inject_Z k + 1) + t.
Proof.
  intros Hs. unfold nearest_src.
  assert (F : forall m, Qfloor ((inject_Z i - t) / s) = m <->
     s * inject_Z m + t <= inject_Z i /\ inject_Z i < s * (inject_Z m + 1) + t).
  { intros m. rewrite floor_eq_iff. rewrite le_div_iff by exact Hs. split; intros [A B]; split; try lra.
    - apply Qnot_le_lt. intros C. apply Qlt_not_le in B. apply B.
      apply le_div_iff; [exact Hs|]. lra.
    - apply Qnot_le_lt. intros C. apply le_div_iff in C; [|exact Hs]. lra. }
  split.
  - dif E; [|discriminate]. intros H0.
    assert (H : Qfloor ((inject_Z i - t) / s) = k) by congruence. rewrite H in E.
    pose proof (proj1 (F k) H). split; [lia|assumption].
  - intros [R B]. apply F in B. rewrite B. dif E; [reflexivity|lia].
Qed.

(** ** Splitting *)

Lemma log2_floor q : 1 <= q ->
  pow2 (Z.log2 (Qfloor q)) <= q /\ q < pow2 (Z.log2 (Qfloor q) + 1) /\ (0 <= Z.log2 (Qfloor q))%Z.
Proof.
  intros H. assert (F : (1 <= Qfloor q)%Z) by (apply floor_ge_iff; exact H).
  pose proof (Z.log2_spec (Qfloor q)) as [A B]; [lia|].
  pose proof (Z.log2_nonneg (Qfloor q)) as N.
  rewrite !pow2_Z by lia. split; [|split; [|exact N]].
  - apply (proj1 (injZ_le _ _)) in A. pose proof (floor_le q). lra.
  - assert (inject_Z (Qfloor q + 1) <= inject_Z (2 ^ (Z.log2 (Qfloor q) + 1))).
    { apply (proj1 (injZ_le _ _)). unfold Z.succ in B. lia. }
    pose proof (floor_gt q). rewrite injZ_plus in H0. change (inject_Z 1) with 1 in H0. lra.
Qed.

Lemma prepare_scale_residual_spec sx sy n rx ry :
  prepare_scale_residual sx sy = Ok (n, rx, ry) ->
  0 < Qmax sx sy /\ (0 <= n)%Z /\ rx == sx * pow2 n /\ ry == sy * pow2 n /\
  (Qmax sx sy <= 1 -> 1#2 < Qmax sx sy * pow2 n /\ Qmax sx sy * pow2 n <= 1) /\
  (1 < Qmax sx sy -> n = 0%Z).
Proof.
  unfold prepare_scale_residual. dif E; [discriminate|].
  assert (P : 0 < Qmax sx sy).
  { apply Qnot_le_lt. intros C. apply Qle_bool_iff in C. congruence. }
  set (m := Qmax sx sy) in *. clearbody m.
  set (k := if Qle_bool 1 (1 / m) then _ else _).
  assert (K : (0 <= k)%Z /\ (m <= 1 -> 1#2 < m * pow2 k /\ m * pow2 k <= 1) /\ (1 < m -> k = 0%Z)).
  { unfold k. destruct (Qle_bool 1 (1 / m)) eqn:E1.
    - apply Qle_bool_iff in E1. pose proof (log2_floor _ E1) as (A & B & N).
      rewrite Z.max_l by exact N. set (j := Z.log2 (Qfloor (1 / m))) in *.
      split; [exact N|].
      split.
      + intros _. apply le_div_iff in A; [|exact P]. rewrite pow2_plus in B. change (pow2 1) with (2#1) in B.
        assert (B' : 1 < pow2 j * (2#1) * m).
        { apply Qnot_le_lt. intros C. apply Qlt_not_le in B. apply B. apply le_div_iff; [exact P|]. exact C. }
        split; lra.
      + intros C. apply le_div_iff in E1; [lra|exact P].
    - assert (E1' : ~ 1 <= 1 / m). { intros C. apply Qle_bool_iff in C. congruence. }
      split; [lia|]. split; [|reflexivity].
      intros C. exfalso. apply E1'. apply le_div_iff; [exact P|]. lra. }
  clearbody k. destruct K as (K1 & K2 & K3). intros H. injection H as <- <- <-.
  pose proof (pow2_pos k) as Pk.
  split; [exact P|]. split; [exact K1|]. split; [field; lra|]. split; [field; lra|].
  split; assumption.
Qed.

Lemma scale_det s : aff_det (aff_scale s s) == s * s.
Proof. unfold aff_det, aff_scale; cbn. ring. Qed.

Lemma inv_pow2_pos k : 0 < 1 / pow2 k.
Proof. apply Qlt_shift_div_l; [apply pow2_pos|]. lra. Qed.

Lemma aff_inv_scale k : exists I, aff_inv (aff_scale (1 / pow2 k) (1 / pow2 k)) = Ok I /\
  forall x y, ax I x y == pow2 k * x /\ ay I x y == pow2 k * y.
Proof.
  pose proof (inv_pow2_pos k) as P. pose proof (pow2_pos k) as P2.
  assert (D : ~ aff_det (aff_scale (1 / pow2 k) (1 / pow2 k)) == 0).
  { rewrite scale_det. nra. }
  unfold aff_inv. destruct (Qeq_bool _ 0) eqn:E; [apply Qeq_bool_iff in E; contradiction|].
  eexists; split; [reflexivity|]. intros x y. unfold ax, ay, aff_inv_raw, aff_det, aff_scale; cbn.
  split; field; lra.
Qed.

Lemma split_residual_spec M n : exists R, split_residual M n = Ok R /\
  forall x y, ax R (x / pow2 n) (y / pow2 n) == ax M x y /\
              ay R (x / pow2 n) (y / pow2 n) == ay M x y.
Proof.
  destruct (aff_inv_scale n) as (I & EI & HI). unfold split_residual. rewrite EI. cbn [bind].
  eexists; split; [reflexivity|]. intros x y. rewrite ax_mul, ay_mul.
  destruct (HI (x / pow2 n) (y / pow2 n)) as [-> ->]. pose proof (pow2_pos n).
  setoid_replace (pow2 n * (x / pow2 n)) with x by (field; lra).
  setoid_replace (pow2 n * (y / pow2 n)) with y by (field; lra). split; reflexivity.
Qed.

Lemma warp_after_overview_spec k B : exists C, warp_after_overview k B = Ok C /\
  forall x y, ax C (x / pow2 k) (y / pow2 k) == ax B x y / pow2 k /\
              ay C (x / pow2 k) (y / pow2 k) == ay B x y / pow2 k.
Proof.
  destruct (aff_inv_scale k) as (I & EI & HI). unfold warp_after_overview. rewrite EI. cbn [bind].
  eexists; split; [reflexivity|]. intros x y. rewrite !ax_mul, !ay_mul, ax_scale, ay_scale.
  destruct (HI (x / pow2 k) (y / pow2 k)) as [-> ->]. pose proof (pow2_pos k).
  setoid_replace (pow2 k * (x / pow2 k)) with x by (field; lra).
  setoid_replace (pow2 k * (y / pow2 k)) with y by (field; lra). split; field; lra.
Qed.

(** ** Lazy no-ops *)

Lemma is_identity_spec M : is_identity M = true ->
  forall x y, ax M x y == x /\ ay M x y == y.
Proof.
  unfold is_identity. rewrite !andb_true_iff. rewrite !Qeq_bool_iff.
  intros [[[[[E1 E2] E3] E4] E5] E6] x y. unfold ax, ay. rewrite E1, E2, E3, E4, E5, E6. split; ring.
Qed.

Lemma Qceiling_proper x y : x == y -> Qceiling x = Qceiling y.
Proof. intros E. apply Qceiling_comp. exact E. Qed.

Lemma auto_dsize_identity M w h : (0 <= w)%Z -> (0 <= h)%Z ->
  (forall x y, ax M x y == x /\ ay M x y == y) -> auto_dsize M (w, h) = (w, h).
Proof.
  intros Hw Hh H.
  assert (Qw : 0 <= inject_Z w) by (apply (proj1 (injZ_le 0 w)); exact Hw).
  assert (Qh : 0 <= inject_Z h) by (apply (proj1 (injZ_le 0 h)); exact Hh).
  unfold auto_dsize; cbn [fst snd]. f_equal; apply ceil_eq_iff.
  - match goal with |- Qmax4 ?a ?b ?c ?d <= _ /\ _ =>
      pose proof (Qmax4_spec a b c d) as (A1 & A2 & A3 & A4);
      assert (Qmax4 a b c d <= inject_Z w) by
        (apply Qmax4_le; match goal with |- ax M ?x ?y <= _ => destruct (H x y) as [-> _]; lra end)
    end.
    destruct (H (inject_Z w) 0) as [E _]. rewrite E in A2 at 1. split; lra.
  - match goal with |- Qmax4 ?a ?b ?c ?d <= _ /\ _ =>
      pose proof (Qmax4_spec a b c d) as (A1 & A2 & A3 & A4);
      assert (Qmax4 a b c d <= inject_Z h) by
        (apply Qmax4_le; match goal with |- ay M ?x ?y <= _ => destruct (H x y) as [_ ->]; lra end)
    end.
    destruct (H 0 (inject_Z h)) as [_ E]. rewrite E in A3 at 1. split; lra.
Qed.

Lemma lazy_crop_noop_full w h ys xs pad ci : (0 <= w)%Z -> (0 <= h)%Z ->
  lazy_crop_noop (w, h) ys xs pad ci = true ->
  wrap_clip h ys = Ok (0%Z, h) /\ wrap_clip w xs = Ok (0%Z, w) /\ pad = false.
Proof.
  intros Hw Hh. unfold lazy_crop_noop. rewrite !andb_true_iff. cbn [fst snd].
  intros [[[[A B] C] D] E].
  assert (F : forall n s, (0 <= n)%Z ->
    match fst s with None => true | Some z => (z =? 0)%Z end = true ->
    match snd s with None => true | Some z => (z =? n)%Z end = true ->
    wrap_clip n s = Ok (0%Z, n)).
  { intros n [[a|] [b|]] Hn Ha Hb; cbn [fst snd] in *; unfold wrap_clip; cbv beta zeta; cbn [fst snd].
    - assert (a = 0%Z) as -> by lia. assert (b = n) as -> by lia.
      change (0 <? 0)%Z with false. cbv beta iota. destruct (n <? 0)%Z eqn:En; [lia|].
      dif E'; [lia|]. repeat f_equal; lia.
    - assert (a = 0%Z) as -> by lia.
      change (0 <? 0)%Z with false. cbv beta iota.
      dif E'; [lia|]. repeat f_equal; lia.
    - assert (b = n) as -> by lia. destruct (n <? 0)%Z eqn:En; [lia|].
      dif E'; [lia|]. repeat f_equal; lia.
    - dif E'; [lia|]. reflexivity. }
  repeat split; [apply F; assumption | apply F; assumption |]. destruct pad; [discriminate|reflexivity].
Qed.

(** ** Lemmas in the form used by the property file *)

Lemma swap_warp_after_crop_defined ys xs M :
  (exists r, swap_warp_after_crop ys xs M = Ok r) <-> ~ aff_det M == 0.
Proof.
  unfold swap_warp_after_crop. split.
  - intros [r H]. destruct (aff_inv M) as [I|e] eqn:EI; cbn [bind] in H; [|discriminate].
    apply aff_inv_ok in EI. apply EI.
  - intros Hd. unfold aff_inv. destruct (Qeq_bool (aff_det M) 0) eqn:E.
    + apply Qeq_bool_iff in E. contradiction.
    + cbn [bind]. eexists. reflexivity.
Qed.

Lemma fast_axis_full s t n r : 0 < s -> (0 <= n)%Z -> (fst r <= snd r)%Z ->
  exists x0 x1 off a b, fast_axis s t n r = ((x0, x1), off) /\
  wrap_clip n (Some x0, Some x1) = Ok (a, b) /\ (0 <= a <= b)%Z /\ (b <= n)%Z /\
  forall u, 0 <= u <= inject_Z n -> inject_Z (fst r) <= s * u + t <= inject_Z (snd r) ->
    inject_Z a <= u <= inject_Z b /\ a = x0 /\
    s * (u - inject_Z a) + off == (s * u + t) - inject_Z (fst r).
Proof.
  intros Hs Hn Hr.
  pose proof (fast_axis_slice s t n r Hn Hs Hr) as S.
  pose proof (fun u => fast_axis_covers s t n r u Hs) as C.
  destruct (fast_axis s t n r) as [[x0 x1] off].
  destruct S as (a & b & E & X0 & Ea & S).
  exists x0, x1, off, a, b. split; [reflexivity|]. split; [exact E|].
  pose proof (wrap_clip_bounds n _ _ Hn E) as B. cbn [fst snd] in B.
  split; [lia|]. split; [lia|].
  intros u [U0 U1] [R0 R1]. destruct (C u U0 U1 R0 R1) as (C1 & C2 & C3).
  destruct (S u C1 C2 U0) as [S1 S2].
  assert (Ex : a = x0).
  { rewrite Ea. apply Z.min_l. apply (proj2 (injZ_le _ _)). lra. }
  split; [split; assumption|]. split; [exact Ex|]. rewrite Ex. exact C3.
Qed.

Lemma overview_crop_size_differs : exists k r n,
  (0 <= k)%Z /\ (0 <= fst r)%Z /\ (fst r <= snd r)%Z /\ (snd r <= n)%Z /\
  let '((q0, q1), off) := overview_crop_axis k r in
  fst (auto_dsize (aff_translate off 0) (q1 - q0, 1)%Z) <> overview_len k (snd r - fst r).
Proof.
  exists 1%Z, (1, 3)%Z, 4%Z. cbn [fst snd]. repeat (split; [lia|]). vm_compute. discriminate.
Qed.

Lemma overview_len_0 n : overview_len 0 n = n.
Proof. rewrite overview_len_ceil by lia. change (2 ^ 0)%Z with 1%Z. rewrite Z.div_1_r. lia. Qed.

Lemma overview_dsize_plus a b sz : (0 <= a)%Z -> (0 <= b)%Z ->
  overview_dsize b (overview_dsize a sz) = overview_dsize (a + b) sz /\
  fst (overview_dsize a sz) = (- ((- fst sz) / 2 ^ a))%Z /\
  snd (overview_dsize a sz) = (- ((- snd sz) / 2 ^ a))%Z /\
  overview_dsize 0 sz = sz.
Proof.
  intros Ha Hb. unfold overview_dsize. cbn [fst snd].
  rewrite !overview_len_plus by assumption. rewrite !overview_len_0.
  rewrite <- !overview_len_ceil by assumption. destruct sz. repeat split; reflexivity.
Qed.

Lemma embed_axis_window D low high pad : (0 <= D)%Z -> (0 <= pad)%Z -> (low <= high)%Z ->
  exists d0 d1 e0 e1, embed_axis D low high pad = Ok ((d0, d1), (e0, e1)) /\
  (0 <= d0 <= d1)%Z /\ (d1 <= D)%Z /\
  (d1 - d0 + e0 + e1 = (high + pad) - (low - pad))%Z /\
  (forall p, (0 <= p < (high + pad) - (low - pad))%Z ->
     let z := (low - pad + p)%Z in
     ((0 <= z < D)%Z -> (0 <= p - e0 < d1 - d0)%Z /\ (d0 + (p - e0) = z)%Z) /\
     (~ (0 <= z < D)%Z -> ~ (0 <= p - e0 < d1 - d0)%Z)).
Proof.
  intros HD Hp Hl. destruct (embed_axis_total D low high pad Hl) as ([d0 d1] & [e0 e1] & E).
  exists d0, d1, e0, e1. destruct (embed_axis_spec _ _ _ _ _ _ _ _ HD Hp E) as (A & B & C & D' & F & G).
  repeat (split; [assumption|]). exact G.
Qed.

Lemma padded_crop_window w h ys xs pad :
  (0 <= w)%Z -> (0 <= h)%Z -> (0 <= pad)%Z -> (fst ys <= snd ys)%Z -> (fst xs <= snd xs)%Z ->
  exists dy dx tf, padded_crop (w, h) ys xs pad = Ok (dy, dx, tf) /\
  let off := match tf with Some (M, _) => (b1 M, b2 M) | None => (0, 0) end in
  let out := match tf with Some (_, sz) => sz | None => (iv_len dx, iv_len dy) end in
  match tf with Some (M, _) => M = aff_translate (b1 M) (b2 M) | None => True end /\
  out = (iv_len xs + 2 * pad, iv_len ys + 2 * pad)%Z /\
  forall px py, (0 <= px < fst out)%Z -> (0 <= py < snd out)%Z ->
    let X := (fst xs - pad + px)%Z in
    let Y := (fst ys - pad + py)%Z in
    ((0 <= X < w)%Z -> (0 <= Y < h)%Z ->
       inject_Z (fst dx) <= inject_Z (fst dx) + (inject_Z px - fst off) < inject_Z (snd dx) /\
       inject_Z (fst dy) <= inject_Z (fst dy) + (inject_Z py - snd off) < inject_Z (snd dy) /\
       inject_Z (fst dx) + (inject_Z px - fst off) == inject_Z X /\
       inject_Z (fst dy) + (inject_Z py - snd off) == inject_Z Y) /\
    (~ ((0 <= X < w)%Z /\ (0 <= Y < h)%Z) ->
       ~ (0 <= inject_Z px - fst off < inject_Z (iv_len dx) /\
          0 <= inject_Z py - snd off < inject_Z (iv_len dy))).
Proof.
  intros Hw Hh Hp Hy Hx. unfold padded_crop. cbn [fst snd].
  destruct (embed_axis_window h (fst ys) (snd ys) pad Hh Hp Hy) as (y0 & y1 & f0 & f1 & EY & A1 & A2 & A3 & A4).
  destruct (embed_axis_window w (fst xs) (snd xs) pad Hw Hp Hx) as (x0 & x1 & e0 & e1 & EX & B1 & B2 & B3 & B4).
  rewrite EY, EX. cbn [bind].
  pose (tf := (if ((f0 =? 0)%Z && (f1 =? 0)%Z && (e0 =? 0)%Z && (e1 =? 0)%Z)%bool then None
             else Some (aff_translate (inject_Z e0) (inject_Z f0),
                        (iv_len (x0, x1) + e0 + e1, iv_len (y0, y1) + f0 + f1)%Z)) : option (affine * size)).
  exists (y0, y1), (x0, x1), tf. split.
  { unfold tf. destruct (_ && _)%bool; reflexivity. }
  cbv zeta.
  assert (Off : match tf with Some (M, _) => (b1 M, b2 M) | None => (0, 0) end = (inject_Z e0, inject_Z f0)).
  { unfold tf. destruct (_ && _)%bool eqn:E; [|reflexivity].
    rewrite !andb_true_iff in E. f_equal; [assert (e0 = 0%Z) as -> by lia | assert (f0 = 0%Z) as -> by lia]; reflexivity. }
  assert (Out : match tf with Some (_, sz) => sz | None => (iv_len (x0, x1), iv_len (y0, y1)) end
                = (iv_len xs + 2 * pad, iv_len ys + 2 * pad)%Z).
  { unfold iv_len in *. unfold tf. destruct (_ && _)%bool eqn:E; cbn [fst snd].
    - rewrite !andb_true_iff in E. f_equal; lia.
    - f_equal; lia. }
  rewrite Off, Out. split; [|split; [reflexivity|]].
  { unfold tf. destruct (_ && _)%bool; [exact I|reflexivity]. }
  unfold iv_len in *. cbn [fst snd] in *. intros px py Px Py.
  specialize (A4 py ltac:(lia)). specialize (B4 px ltac:(lia)). cbv zeta in A4, B4.
  destruct A4 as [A4 A5]. destruct B4 as [B4 B5].
  rewrite <- !injZ_minus, <- !injZ_plus.
  split.
  - intros IX IY. specialize (A4 IY). specialize (B4 IX).
    repeat split; try (apply (proj1 (injZ_le _ _))); try (apply (proj1 (injZ_lt _ _))); try lia.
    + destruct B4 as [_ ->]. reflexivity.
    + destruct A4 as [_ ->]. reflexivity.
  - intros N [[C1 C2] [C3 C4]]. change 0 with (inject_Z 0) in C1, C3.
    apply (proj2 (injZ_le _ _)) in C1. apply (proj2 (injZ_le _ _)) in C3.
    apply (proj2 (injZ_lt _ _)) in C2. apply (proj2 (injZ_lt _ _)) in C4.
    apply N. split.
    + destruct (Z_le_gt_dec 0 (fst xs - pad + px)); [destruct (Z_lt_ge_dec (fst xs - pad + px) w)|]; try lia;
      exfalso; apply B5; lia.
    + destruct (Z_le_gt_dec 0 (fst ys - pad + py)); [destruct (Z_lt_ge_dec (fst ys - pad + py) h)|]; try lia;
      exfalso; apply A5; lia.
Qed.

Lemma nearest_pixel_spec {V} (fill : V) sx sy tx ty in_w in_h (src : Z -> Z -> V) row col :
  0 < sx -> 0 < sy ->
  let cell := fun s t k i => s * inject_Z k + t <= inject_Z i /\ inject_Z i < s * inject_Z (k + 1) + t in
  (forall x y, (0 <= x < in_w)%Z -> (0 <= y < in_h)%Z ->
     cell sx tx x col -> cell sy ty y row ->
     nearest_pixel fill sx sy tx ty in_w in_h src row col = src y x) /\
  ((forall x y, (0 <= x < in_w)%Z -> (0 <= y < in_h)%Z ->
     ~ (cell sx tx x col /\ cell sy ty y row)) ->
     nearest_pixel fill sx sy tx ty in_w in_h src row col = fill).
Proof.
  intros Hx Hy cell. unfold nearest_pixel.
  assert (E : forall s t n i k, 0 < s -> nearest_src s t n i = Some k <-> (0 <= k < n)%Z /\ cell s t k i).
  { intros s t n i k Hs. rewrite (nearest_src_spec s t n i k Hs). unfold cell. rewrite injZ_plus.
    change (inject_Z 1) with 1. tauto. }
  split.
  - intros x y Bx By Cx Cy.
    rewrite (proj2 (E sy ty in_h row y Hy) (conj By Cy)).
    rewrite (proj2 (E sx tx in_w col x Hx) (conj Bx Cx)). reflexivity.
  - intros N. destruct (nearest_src sy ty in_h row) as [y|] eqn:Ey; [|reflexivity].
    destruct (nearest_src sx tx in_w col) as [x|] eqn:Ex; [|reflexivity].
    apply (E _ _ _ _ _ Hy) in Ey. apply (E _ _ _ _ _ Hx) in Ex.
    exfalso. apply (N x y); tauto.
Qed.

Lemma zseq_In_Z n z : In z (zseq (Z.to_nat n)) <-> (0 <= z < n)%Z.
Proof. rewrite zseq_In. lia. Qed.

Lemma nearest_idx_cell s t i k : 0 < s ->
  Qfloor ((inject_Z i - t) / s) = k <->
  s * inject_Z k + t <= inject_Z i /\ inject_Z i < s * inject_Z (k + 1) + t.
Proof.
  intros Hs. rewrite floor_eq_iff, injZ_plus. change (inject_Z 1) with 1.
  rewrite le_div_iff by exact Hs. split; intros [A B]; split; try lra.
  - apply Qnot_le_lt. intros C. apply Qlt_not_le in B. apply B.
    apply le_div_iff; [exact Hs|]. lra.
  - apply Qnot_le_lt. intros C. apply le_div_iff in C; [|exact Hs]. lra.
Qed.

Lemma nearest_axis_valid s t n m : 0 < s ->
  existsb (fun k => (0 <=? k) && (k <? n))%Z
    (map (fun i => Qfloor ((inject_Z i - t) / s)) (zseq (Z.to_nat m))) = true <->
  exists i k, (0 <= i < m)%Z /\ (0 <= k < n)%Z /\
    s * inject_Z k + t <= inject_Z i /\ inject_Z i < s * inject_Z (k + 1) + t.
Proof.
  intros Hs. rewrite existsb_exists. split.
  - intros (k & Hk & H). apply in_map_iff in Hk as (i & Hi & Hin). apply zseq_In_Z in Hin.
    apply (nearest_idx_cell s t i k Hs) in Hi. exists i, k. split; [exact Hin|]. split; [lia|exact Hi].
  - intros (i & k & Hi & Hk & C). apply (nearest_idx_cell s t i k Hs) in C. exists k. split; [|lia].
    apply in_map_iff. exists i. split; [exact C|]. now apply zseq_In_Z.
Qed.

Lemma nearest_axis_indexable s t n m : 0 < s ->
  forallb (fun k => (- n <=? k) && (k <? n))%Z
    (map (fun i => Qfloor ((inject_Z i - t) / s)) (zseq (Z.to_nat m))) = true <->
  forall i, (0 <= i < m)%Z ->
    s * inject_Z (- n) + t <= inject_Z i /\ inject_Z i < s * inject_Z n + t.
Proof.
  intros Hs. rewrite forallb_forall.
  assert (F : forall i, (- n <= Qfloor ((inject_Z i - t) / s) < n)%Z <->
     s * inject_Z (- n) + t <= inject_Z i /\ inject_Z i < s * inject_Z n + t).
  { intros i. split.
    - intros [A B]. apply floor_ge_iff in A. apply le_div_iff in A; [|exact Hs].
      split; [lra|]. apply Qnot_le_lt. intros C.
      assert (n <= Qfloor ((inject_Z i - t) / s))%Z; [|lia].
      apply floor_ge_iff. apply le_div_iff; [exact Hs|]. lra.
    - intros [A B]. split.
      + apply floor_ge_iff. apply le_div_iff; [exact Hs|]. lra.
      + apply Z.nle_gt. intros C. apply floor_ge_iff in C. apply le_div_iff in C; [|exact Hs]. lra. }
  split.
  - intros H i Hi. apply F. apply zseq_In_Z in Hi.
    specialize (H _ (in_map (fun i => Qfloor ((inject_Z i - t) / s)) _ _ Hi)). cbv beta in H. lia.
  - intros H k Hk. apply in_map_iff in Hk as (i & <- & Hi). apply zseq_In_Z in Hi.
    specialize (H i Hi). apply F in H. lia.
Qed.

Lemma nearest_warp_spec {V} (fill : V) sx sy tx ty in_w in_h out_w out_h (src : Z -> Z -> V) out :
  0 < sx -> 0 < sy ->
  nearest_warp fill sx sy tx ty in_w in_h out_w out_h src = Ok out ->
  let cell := fun s t k i => s * inject_Z k + t <= inject_Z i /\ inject_Z i < s * inject_Z (k + 1) + t in
  forall row col, (0 <= row < out_h)%Z -> (0 <= col < out_w)%Z ->
  (forall x y, (0 <= x < in_w)%Z -> (0 <= y < in_h)%Z ->
     cell sx tx x col -> cell sy ty y row -> out row col = src y x) /\
  ((forall x y, (0 <= x < in_w)%Z -> (0 <= y < in_h)%Z ->
     ~ (cell sx tx x col /\ cell sy ty y row)) -> out row col = fill).
Proof.
  intros Hx Hy H cell row col Hr Hc. unfold nearest_warp in H.
  destruct (existsb _ _ && existsb _ _)%bool eqn:Ev in H.
  - destruct (forallb _ _ && forallb _ _)%bool in H; [|discriminate].
    injection H as <-. apply nearest_pixel_spec; assumption.
  - injection H as <-. split; [|reflexivity]. intros x y Bx By Cx Cy. exfalso.
    apply andb_false_iff in Ev as [Ev|Ev]; apply not_true_iff_false in Ev; apply Ev.
    + apply nearest_axis_valid; [exact Hx|]. exists col, x. auto.
    + apply nearest_axis_valid; [exact Hy|]. exists row, y. auto.
Qed.

Lemma nearest_warp_defined {V} (fill : V) sx sy tx ty in_w in_h out_w out_h (src : Z -> Z -> V) :
  0 < sx -> 0 < sy ->
  let cell := fun s t k i => s * inject_Z k + t <= inject_Z i /\ inject_Z i < s * inject_Z (k + 1) + t in
  (exists out, nearest_warp fill sx sy tx ty in_w in_h out_w out_h src = Ok out) <->
  (forall row col x y, (0 <= row < out_h)%Z -> (0 <= col < out_w)%Z ->
     (0 <= x < in_w)%Z -> (0 <= y < in_h)%Z -> cell sx tx x col -> cell sy ty y row ->
     (forall i, (0 <= i < out_w)%Z ->
        sx * inject_Z (- in_w) + tx <= inject_Z i /\ inject_Z i < sx * inject_Z in_w + tx) /\
     (forall i, (0 <= i < out_h)%Z ->
        sy * inject_Z (- in_h) + ty <= inject_Z i /\ inject_Z i < sy * inject_Z in_h + ty)).
Proof.
  intros Hx Hy cell. unfold nearest_warp.
  destruct (existsb _ _ && existsb _ _)%bool eqn:Ev.
  - apply andb_prop in Ev as [E1 E2].
    apply nearest_axis_valid in E1 as (col & x & Hc & Bx & Cx); [|exact Hx].
    apply nearest_axis_valid in E2 as (row & y & Hr & By & Cy); [|exact Hy].
    destruct (forallb _ _ && forallb _ _)%bool eqn:Ei.
    + apply andb_prop in Ei as [I1 I2].
      rewrite nearest_axis_indexable in I1 by exact Hx. rewrite nearest_axis_indexable in I2 by exact Hy.
      split; [auto|eauto].
    + split; [intros (out & H); discriminate|]. intros H. exfalso.
      destruct (H row col x y Hr Hc Bx By Cx Cy) as [I1 I2].
      rewrite <- (nearest_axis_indexable sx tx in_w out_w Hx) in I1.
      rewrite <- (nearest_axis_indexable sy ty in_h out_h Hy) in I2.
      rewrite I1, I2 in Ei. discriminate.
  - split; [|eauto]. intros _ row col x y Hr Hc Bx By Cx Cy. exfalso.
    apply andb_false_iff in Ev as [Ev|Ev]; apply not_true_iff_false in Ev; apply Ev.
    + apply nearest_axis_valid; [exact Hx|]. exists col, x. auto.
    + apply nearest_axis_valid; [exact Hy|]. exists row, y. auto.
Qed.

Lemma lazy_warp_noop_spec close w h M dsize : (0 <= w)%Z -> (0 <= h)%Z ->
  (forall N, close N = true -> is_identity N = true) ->
  lazy_warp_noop close (w, h) M dsize = true ->
  (dsize = None \/ dsize = Some (w, h)) /\
  match M with
  | None => True
  | Some N => (forall x y, ax N x y == x /\ ay N x y == y) /\ auto_dsize N (w, h) = (w, h)
  end.
Proof.
  intros Hw Hh Hc. unfold lazy_warp_noop.
  assert (S : forall d, size_eqb (w, h) d = true -> d = (w, h)).
  { intros [a b]. unfold size_eqb. cbn [fst snd]. intros E. f_equal; lia. }
  intros H. split.
  - destruct dsize as [d|]; [|left; reflexivity]. right. destruct (size_eqb (w, h) d) eqn:E.
    + rewrite (S d E). reflexivity.
    + discriminate.
  - destruct M as [N|]; [|exact I].
    destruct (match dsize with Some d => _ | None => _ end); [discriminate|].
    apply Hc in H. pose proof (is_identity_spec N H) as I0. split; [exact I0|].
    apply auto_dsize_identity; assumption.
Qed.

Lemma lazy_crop_drops_bands : exists sz ys xs ci nbands,
  lazy_crop_noop sz ys xs false (Some ci) = true /\
  (forall i, In i ci -> (0 <= i < nbands)%Z) /\ Z.of_nat (List.length ci) <> nbands.
Proof.
  exists (5, 4)%Z, (Some 0%Z, Some 4%Z), (Some 0%Z, Some 5%Z), [1%Z], 3%Z.
  split; [vm_compute; reflexivity|]. split; [|vm_compute; discriminate].
  intros i [<-|[]]. lia.
Qed.
