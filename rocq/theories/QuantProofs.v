(* Lemmas about quantization with exact arithmetic *)
From Verif Require Import Py PyProofs QuantModel.
From Coq Require Import QArith Qround Qfield Lqa Floats.SpecFloat.
Open Scope Z_scope.

Lemma iinfo_max_pos : forall s b, 2 <= b -> code_min s < iinfo_max s b.
Proof.
  intros s b Hb. unfold code_min, iinfo_max. destruct s.
  - assert (2 ^ 1 <= 2 ^ (b - 1)) by (apply Z.pow_le_mono_r; lia). lia.
  - assert (2 ^ 2 <= 2 ^ b) by (apply Z.pow_le_mono_r; lia). lia.
Qed.

Lemma code_min_nonneg : forall s, 0 <= code_min s.
Proof. destruct s; cbn; lia. Qed.

Lemma iinfo_min_le : forall s b, 2 <= b -> iinfo_min s b <= code_nan s b < code_min s.
Proof.
  intros s b Hb. unfold iinfo_min, code_nan, code_min. destruct s; [|lia].
  assert (2 ^ 1 <= 2 ^ (b - 1)) by (apply Z.pow_le_mono_r; lia).
  unfold iinfo_min. lia.
Qed.

Definition extent s b : Q := inject_Z (iinfo_max s b - code_min s).

Lemma extent_pos : forall s b, 2 <= b -> (0 < extent s b)%Q.
Proof.
  intros s b Hb. unfold extent. replace 0%Q with (inject_Z 0) by reflexivity.
  rewrite <- Zlt_Qlt. pose proof (iinfo_max_pos s b Hb). lia.
Qed.

(* the value cast to an integer, for finite data *)
Definition qclip (lo hi x : Q) : Q := let y := if Qle_bool x lo then lo else x in
  if Qle_bool hi y then hi else y.

Definition qscaled (lo hi : Q) s b (x : Q) : Q :=
  ((qclip lo hi x + - lo) * (extent s b / (hi - lo)) + inject_Z (code_min s))%Q.

Lemma Qle_bool_false : forall a b, Qle_bool a b = false -> (b < a)%Q.
Proof.
  intros a b H. apply Qnot_le_lt. intro L. apply Qle_bool_iff in L. congruence.
Qed.

Lemma qclip_in : forall lo hi x, (lo <= hi)%Q -> (lo <= qclip lo hi x <= hi)%Q.
Proof.
  intros lo hi x H. unfold qclip.
  destruct (Qle_bool x lo) eqn:E1.
  - destruct (Qle_bool hi lo) eqn:E2.
    + apply Qle_bool_iff in E2. lra.
    + lra.
  - apply Qle_bool_false in E1. destruct (Qle_bool hi x) eqn:E2.
    + lra.
    + apply Qle_bool_false in E2. lra.
Qed.

Lemma qclip_id : forall lo hi x, (lo <= x <= hi)%Q -> (qclip lo hi x == x)%Q.
Proof.
  intros lo hi x [H1 H2]. unfold qclip.
  destruct (Qle_bool x lo) eqn:E1.
  - apply Qle_bool_iff in E1. destruct (Qle_bool hi lo) eqn:E2.
    + apply Qle_bool_iff in E2. lra.
    + lra.
  - destruct (Qle_bool hi x) eqn:E2; [apply Qle_bool_iff in E2; lra | lra].
Qed.

Ltac qcases :=
  repeat match goal with
  | |- context [Qle_bool ?a ?b] =>
      lazymatch a with context [Qle_bool _ _] => fail | _ => idtac end;
      lazymatch b with context [Qle_bool _ _] => fail | _ => idtac end;
      destruct (Qle_bool a b) eqn:?
  end;
  repeat match goal with
  | E : Qle_bool _ _ = true |- _ => apply Qle_bool_iff in E
  | E : Qle_bool _ _ = false |- _ => apply Qle_bool_false in E
  end.

Lemma qclip_mono : forall lo hi x y, (x <= y)%Q -> (qclip lo hi x <= qclip lo hi y)%Q.
Proof.
  intros lo hi x y H. unfold qclip.
  qcases; lra.
Qed.

Lemma qclip_low : forall lo hi x, (lo < hi)%Q -> (x <= lo)%Q -> (qclip lo hi x == lo)%Q.
Proof.
  intros lo hi x H1 H2. unfold qclip.
  qcases; lra.
Qed.

Lemma qclip_high : forall lo hi x, (lo < hi)%Q -> (hi <= x)%Q -> (qclip lo hi x == hi)%Q.
Proof.
  intros lo hi x H1 H2. unfold qclip.
  qcases; lra.
Qed.

(* factor *)
Lemma factor_pos : forall lo hi s b, (lo < hi)%Q -> 2 <= b -> (0 < extent s b / (hi - lo))%Q.
Proof.
  intros lo hi s b H Hb. apply Qlt_shift_div_l; [lra|].
  setoid_replace (0 * (hi - lo))%Q with 0%Q by ring. apply extent_pos; auto.
Qed.

Lemma factor_full : forall lo hi s b, (lo < hi)%Q ->
  ((hi - lo) * (extent s b / (hi - lo)) == extent s b)%Q.
Proof. intros. field. lra. Qed.

Lemma qscaled_in : forall lo hi s b x, (lo < hi)%Q -> 2 <= b ->
  (inject_Z (code_min s) <= qscaled lo hi s b x <= inject_Z (iinfo_max s b))%Q.
Proof.
  intros lo hi s b x H Hb. unfold qscaled.
  assert (Hc : (lo <= qclip lo hi x <= hi)%Q) by (apply qclip_in; lra).
  pose proof (factor_pos lo hi s b H Hb) as Hf. pose proof (factor_full lo hi s b H) as Hx.
  set (f := (extent s b / (hi - lo))%Q) in *. set (c := qclip lo hi x) in *.
  assert (H0 : (0 <= (c + - lo) * f)%Q) by (apply Qmult_le_0_compat; lra).
  assert (H1 : ((c + - lo) * f <= (hi - lo) * f)%Q) by (apply Qmult_le_compat_r; lra).
  rewrite Hx in H1. unfold extent in H1. unfold Z.sub in H1. rewrite inject_Z_plus, inject_Z_opp in H1. lra.
Qed.

Lemma Qtrunc_floor : forall q, (0 <= q)%Q -> Qtrunc q = Qfloor q.
Proof. intros q H. unfold Qtrunc. apply Qle_bool_iff in H. rewrite H. reflexivity. Qed.

Lemma Qfloor_between : forall q a b, (inject_Z a <= q <= inject_Z b)%Q -> a <= Qfloor q <= b.
Proof.
  intros q a b [H1 H2]. apply Qfloor_resp_le in H1, H2. rewrite Qfloor_Z in H1, H2. lia.
Qed.

Lemma scaled_fin : forall lo hi s b x, exists v, scaled exact lo hi s b (Fin x) = Fin v /\
  (v == qscaled lo hi s b x)%Q.
Proof.
  intros. unfold scaled, clip, qscaled, qclip, extent. cbn [exact a_add a_mul a_sub a_le to_arr sc_div sc_int sc_sub f_le].
  destruct (Qle_bool x lo); cbn [f_le].
  - destruct (Qle_bool hi lo); eexists; (split; [cbn [f_add f_neg f_mul]; reflexivity | reflexivity]).
  - destruct (Qle_bool hi x); eexists; (split; [cbn [f_add f_neg f_mul]; reflexivity | reflexivity]).
Qed.

(* the code of finite data *)
Definition qcode lo hi s b x := Qfloor (qscaled lo hi s b x).

Lemma quantize1_fin : forall junk lo hi s b x, (lo < hi)%Q -> 2 <= b ->
  quantize1 exact junk lo hi s b (Fin x) = qcode lo hi s b x /\
  code_min s <= qcode lo hi s b x <= iinfo_max s b.
Proof.
  intros junk lo hi s b x H Hb. pose proof (qscaled_in lo hi s b x H Hb) as Hs.
  pose proof (Qfloor_between _ _ _ Hs) as Hr. split; [|exact Hr].
  unfold quantize1, astype. cbn [exact a_nan is_nan a_trunc].
  destruct (scaled_fin lo hi s b x) as [v [Ev Hv]].
  change (scaled (Arith _ _ _ _ _ _ _ _ _ _ _ _ _ _ _ _) lo hi s b (Fin x)) with (scaled exact lo hi s b (Fin x)).
  rewrite Ev. cbn [f_trunc].
  assert (H0 : (0 <= v)%Q).
  { rewrite Hv. apply Qle_trans with (inject_Z (code_min s)); [|apply Hs].
    change 0%Q with (inject_Z 0). rewrite <- Zle_Qle. apply code_min_nonneg. }
  rewrite Qtrunc_floor by exact H0. rewrite (Qfloor_comp _ _ Hv). fold (qcode lo hi s b x) in *.
  pose proof (iinfo_min_le s b Hb). replace (_ && _) with true; [reflexivity|].
  symmetry. apply andb_true_intro. split; apply Z.leb_le; lia.
Qed.

Lemma quantize1_pinf : forall junk lo hi s b, (lo < hi)%Q -> 2 <= b ->
  quantize1 exact junk lo hi s b PInf = qcode lo hi s b hi.
Proof.
  intros junk lo hi s b H Hb. rewrite <- (proj1 (quantize1_fin junk lo hi s b hi H Hb)).
  unfold quantize1. cbn [exact a_nan is_nan]. f_equal.
  unfold scaled, clip. cbn [exact a_add a_mul a_sub a_le to_arr sc_div sc_int sc_sub f_le].
  assert (E1 : Qle_bool hi lo = false).
  { destruct (Qle_bool hi lo) eqn:E; auto. apply Qle_bool_iff in E. lra. }
  assert (E2 : Qle_bool hi hi = true) by (apply Qle_bool_iff; lra).
  cbn [f_le]. rewrite E1. cbn [f_le]. rewrite E2. reflexivity.
Qed.

Lemma quantize1_ninf : forall junk lo hi s b, (lo < hi)%Q -> 2 <= b ->
  quantize1 exact junk lo hi s b NInf = qcode lo hi s b lo.
Proof.
  intros junk lo hi s b H Hb. rewrite <- (proj1 (quantize1_fin junk lo hi s b lo H Hb)).
  unfold quantize1. cbn [exact a_nan is_nan]. f_equal.
  unfold scaled, clip. cbn [exact a_add a_mul a_sub a_le to_arr sc_div sc_int sc_sub f_le].
  assert (E2 : Qle_bool lo lo = true) by (apply Qle_bool_iff; lra). rewrite E2. reflexivity.
Qed.

Lemma quantize1_nan : forall junk lo hi s b,
  quantize1 exact junk lo hi s b Nan = code_nan s b.
Proof. reflexivity. Qed.

Lemma qcode_low : forall lo hi s b x, (lo < hi)%Q -> (x <= lo)%Q -> qcode lo hi s b x = code_min s.
Proof.
  intros lo hi s b x H Hx. unfold qcode, qscaled.
  rewrite <- (Qfloor_Z (code_min s)) at 2. apply Qfloor_comp.
  rewrite (qclip_low lo hi x H Hx). ring_simplify. reflexivity.
Qed.

Lemma qcode_high : forall lo hi s b x, (lo < hi)%Q -> (hi <= x)%Q -> qcode lo hi s b x = iinfo_max s b.
Proof.
  intros lo hi s b x H Hx. unfold qcode, qscaled.
  rewrite <- (Qfloor_Z (iinfo_max s b)). apply Qfloor_comp.
  rewrite (qclip_high lo hi x H Hx).
  setoid_replace (hi + - lo)%Q with (hi - lo)%Q by ring. rewrite factor_full by exact H.
  unfold extent. unfold Z.sub. rewrite inject_Z_plus, inject_Z_opp. ring.
Qed.

Lemma qcode_mono : forall lo hi s b x y, (lo < hi)%Q -> 2 <= b -> (x <= y)%Q ->
  qcode lo hi s b x <= qcode lo hi s b y.
Proof.
  intros lo hi s b x y H Hb L. unfold qcode. apply Qfloor_resp_le. unfold qscaled.
  pose proof (factor_pos lo hi s b H Hb). pose proof (qclip_mono lo hi x y L).
  apply Qplus_le_compat; [|apply Qle_refl]. apply Qmult_le_compat_r; lra.
Qed.

(** dequantize *)

Definition qdeq (lo hi : Q) s b (z : Z) : Q :=
  ((inject_Z z + - inject_Z (code_min s)) * ((hi - lo) / extent s b) + lo)%Q.

Lemma qdeq_qcode : forall lo hi s b x, (lo < hi)%Q -> 2 <= b -> (lo <= x <= hi)%Q ->
  (qdeq lo hi s b (qcode lo hi s b x) <= x /\
   x - qdeq lo hi s b (qcode lo hi s b x) < (hi - lo) / extent s b)%Q.
Proof.
  intros lo hi s b x H Hb Hx.
  pose proof (extent_pos s b Hb) as He. set (e := extent s b) in *.
  assert (Hst : (0 < (hi - lo) / e)%Q).
  { apply Qlt_shift_div_l; [exact He|]. setoid_replace (0 * e)%Q with 0%Q by ring. lra. }
  unfold qdeq, qcode. fold e.
  set (v := qscaled lo hi s b x).
  assert (Ev : (x == (v - inject_Z (code_min s)) * ((hi - lo) / e) + lo)%Q).
  { unfold v, qscaled. fold e. rewrite (qclip_id lo hi x Hx). field. split; lra. }
  pose proof (Qfloor_le v) as F1. pose proof (Qlt_floor v) as F2. rewrite inject_Z_plus in F2.
  set (k := inject_Z (Qfloor v)) in *. set (c := inject_Z (code_min s)) in *.
  change (inject_Z 1) with 1%Q in F2. set (st := ((hi - lo) / e)%Q) in *.
  assert (M1 : ((k - c) * st <= (v - c) * st)%Q) by (apply Qmult_le_compat_r; lra).
  assert (M2 : ((v - c) * st < (k + 1 - c) * st)%Q) by (apply Qmult_lt_compat_r; lra).
  split; lra.
Qed.

Lemma qcode_qdeq : forall lo hi s b z, (lo < hi)%Q -> 2 <= b -> code_min s <= z <= iinfo_max s b ->
  qcode lo hi s b (qdeq lo hi s b z) = z.
Proof.
  intros lo hi s b z H Hb Hz.
  pose proof (extent_pos s b Hb) as He.
  assert (Hst : (0 < (hi - lo) / extent s b)%Q).
  { apply Qlt_shift_div_l; [exact He|]. setoid_replace (0 * extent s b)%Q with 0%Q by ring. lra. }
  assert (R1 : (0 <= inject_Z z + - inject_Z (code_min s))%Q).
  { destruct Hz as [Hz _]. rewrite Zle_Qle in Hz. lra. }
  assert (R2 : (inject_Z z + - inject_Z (code_min s) <= extent s b)%Q).
  { destruct Hz as [_ Hz]. rewrite Zle_Qle in Hz. unfold extent, Z.sub. rewrite inject_Z_plus, inject_Z_opp. lra. }
  assert (Hin : (lo <= qdeq lo hi s b z <= hi)%Q).
  { unfold qdeq. set (st := ((hi - lo) / extent s b)%Q) in *.
    set (d := (inject_Z z + - inject_Z (code_min s))%Q) in *.
    assert (0 <= d * st)%Q by (apply Qmult_le_0_compat; lra).
    assert (d * st <= extent s b * st)%Q by (apply Qmult_le_compat_r; lra).
    assert (extent s b * st == hi - lo)%Q by (unfold st; field; lra). lra. }
  unfold qcode, qscaled. rewrite <- (Qfloor_Z z) at 2. apply Qfloor_comp.
  rewrite (qclip_id _ _ _ Hin). unfold qdeq. field. split; lra.
Qed.

Lemma dequantize1_fin : forall omin sc qm mask z, mask z = false ->
  dequantize1 exact omin sc qm mask z = Fin ((inject_Z z + - inject_Z qm) * sc + omin)%Q.
Proof. intros. unfold dequantize1. rewrite H. reflexivity. Qed.

Lemma dequantize1_nan : forall omin sc qm mask z, mask z = true ->
  dequantize1 exact omin sc qm mask z = Nan.
Proof. intros. unfold dequantize1. rewrite H. reflexivity. Qed.
