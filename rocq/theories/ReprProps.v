(* C131: scalars in bool, floating point and complex types; C132: empty ranges. *)
From Verif Require Import Py PyProofs QuantModel QuantSpec QuantFloat.
From Coq Require Import QArith Qround Lqa Floats.SpecFloat.
Open Scope Z_scope.

(** C131 *)

(* the scalar stands for the complex number re + im i; texts and None for none *)
Inductive stands_for : scalar -> fval -> fval -> Prop :=
| sf_false : stands_for (VBool false) (Fin 0) (Fin 0)
| sf_true : stands_for (VBool true) (Fin 1) (Fin 0)
| sf_int z : stands_for (VInt z) (Fin (inject_Z z)) (Fin 0)
| sf_float f : stands_for (VFloat f) f (Fin 0)
| sf_rational q : stands_for (VRational q) (Fin q) (Fin 0)
| sf_complex re im : stands_for (VComplex re im) re im.
Definition real (v : scalar) : Prop := match v with VComplex _ _ => False | _ => True end.
Definition between (m q : Q) : Prop := (- m <= q /\ q <= m)%Q.

Theorem C131_representable : forall v,
  (* bool: 0 and 1 *)
  (representable v DBool = true <-> exists p q, stands_for v (Fin p) (Fin q) /\ (p == 0 \/ p == 1)%Q /\ (q == 0)%Q) /\
  (* floating point: real numbers that are infinite, nan or not above the largest finite one *)
  (forall m, representable v (DFloat m) = true <->
     real v /\ exists f i, stands_for v f i /\ forall q, f = Fin q -> between m q) /\
  (* complex: the same for both parts, unless one of them is infinite or nan *)
  (forall m, (0 <= m)%Q -> (representable v (DComplex m) = true <->
     exists f g, stands_for v f g /\ forall p q, f = Fin p -> g = Fin q -> between m p /\ between m q)) /\
  (* texts, structures and the like: always *)
  representable v DOther = true.
Proof.
  assert (W : forall m f, within m f = true <-> forall q, f = Fin q -> between m q).
  { intros m [q| | |]; cbn; try (split; [discriminate|reflexivity]).
    - rewrite andb_true_iff, !Qle_bool_iff. unfold between. split; [intros H ? [= <-]; exact H|intros H; now apply H]. }
  assert (B : forall q : Q, (Qeq_bool q 0 || Qeq_bool q 1)%bool = true <-> (q == 0 \/ q == 1)%Q).
  { intros q. rewrite orb_true_iff, !Qeq_bool_iff. tauto. }
  intros v. split; [|split; [|split; [|reflexivity]]].
  - destruct v as [b|z|[q| | |]|q|[p| | |] [q| | |]|s|]; cbn; rewrite ?B;
      try (split; [discriminate|intros (? & ? & K & _); inversion K]).
    + split; [|reflexivity]. intros _. exists (if b then 1 else 0)%Q, 0%Q.
      split; [destruct b; constructor|]. split; [destruct b; [right|left]; reflexivity|reflexivity].
    + rewrite orb_true_iff, !Z.eqb_eq. split.
      * intros H. exists (inject_Z z), 0%Q. split; [constructor|]. split; [destruct H as [-> | ->]; [left|right]; reflexivity|reflexivity].
      * intros (p & q & K & H & _). inversion K; subst. destruct H as [H|H]; [left|right]; now apply inject_Z_injective.
    + split; [intros H; exists q, 0%Q; split; [constructor|split; [exact H|reflexivity]]|].
      intros (p' & q' & K & H & _). now inversion K; subst.
    + split; [intros H; exists q, 0%Q; split; [constructor|split; [exact H|reflexivity]]|].
      intros (p' & q' & K & H & _). now inversion K; subst.
    + rewrite andb_true_iff, B, Qeq_bool_iff. split; [intros (H & G); exists p, q; split; [constructor|split; [exact H|exact G]]|].
      intros (p' & q' & K & H & G). inversion K; subst. auto.
  - intros m. destruct v as [b|z|f|q|re im|s|]; cbn [representable py_float_of real]; rewrite ?W.
    + split; [intros H; split; [exact I|]; exists (Fin (if b then 1 else 0)%Q), (Fin 0); split; [destruct b; constructor|exact H]|].
      intros (_ & f & i & K & H). destruct b; inversion K; subst; exact H.
    + split; [intros H; split; [exact I|]; eexists _, _; split; [constructor|exact H]|].
      intros (_ & f & i & K & H). inversion K; subst; exact H.
    + split; [intros H; split; [exact I|]; eexists _, _; split; [constructor|exact H]|].
      intros (_ & f' & i & K & H). inversion K; subst; exact H.
    + split; [intros H; split; [exact I|]; eexists _, _; split; [constructor|exact H]|].
      intros (_ & f & i & K & H). inversion K; subst; exact H.
    + split; [discriminate|tauto].
    + split; [discriminate|intros (_ & f & i & K & _); inversion K].
    + split; [discriminate|intros (_ & f & i & K & _); inversion K].
  - intros m Hm.
    assert (Z0 : between m 0) by (split; [apply (Qopp_le_compat 0 m) in Hm; exact Hm|exact Hm]).
    assert (R : forall f, stands_for v f (Fin 0) -> (forall f' g', stands_for v f' g' -> f' = f /\ g' = Fin 0) ->
      (within m f = true <-> exists f g, stands_for v f g /\ forall p q, f = Fin p -> g = Fin q -> between m p /\ between m q)).
    { intros f Hf Hu. rewrite W. split.
      - intros H. exists f, (Fin 0). split; [exact Hf|]. intros p q Ep [= <-]. split; [now apply H|exact Z0].
      - intros (f' & g & K & H) q ->. destruct (Hu _ _ K) as (-> & ->). now apply (H q 0%Q). }
    destruct v as [b|z|f|q|re im|s|]; cbn [representable py_float_of].
    + apply R; [destruct b; constructor|]. intros f' g' K. destruct b; inversion K; auto.
    + apply R; [constructor|]. intros f' g' K. inversion K; auto.
    + apply R; [constructor|]. intros f' g' K. inversion K; auto.
    + apply R; [constructor|]. intros f' g' K. inversion K; auto.
    + assert (E : forall f, negb (finite f) = true <-> forall q, f <> Fin q) by (intros []; cbn; split; try congruence; intros H; now destruct (H q)).
      rewrite !orb_true_iff, andb_true_iff, !E, !W. split.
      * intros [[H|H]|(H1 & H2)]; exists re, im; (split; [constructor|]); intros p q Ep Eq; [now destruct (H p)|now destruct (H q)|auto].
      * intros (f & g & K & H). inversion K; subst f g.
        destruct re as [p| | |]; [|left; left; discriminate..]. destruct im as [q| | |]; [|left; right; discriminate..].
        right. destruct (H p q eq_refl eq_refl). split; intros ? [= <-]; assumption.
    + split; [discriminate|intros (f & g & K & _); inversion K].
    + split; [discriminate|intros (f & g & K & _); inversion K].
Qed.
Print Assumptions C131_representable.
Example C131_case : representable (VInt 1) DBool = true /\ representable (VInt 2) DBool = false /\
  representable (VInt 70000) (DFloat 65504) = false /\ representable (VFloat Nan) (DFloat 65504) = true /\
  representable (VComplex (Fin 1) (Fin 70000)) (DComplex 65504) = false /\
  representable (VComplex PInf (Fin 70000)) (DComplex 65504) = true.
Proof. vm_compute. auto 10. Qed.

(** C132: a range is refused iff it is empty, whatever the data and the dtype. *)
From Coq Require Import Reals Lra.
From Flocq Require Import Core.Core Plus_error IEEE754.BinarySingleNaN.

Definition finite_float (x : spec_float) : Prop :=
  SpecFloat.valid_binary 53 1024 x = true /\ match x with S754_zero _ | S754_finite _ _ _ => True | _ => False end.

Lemma sub_zero (x y : spec_float) : finite_float x -> finite_float y ->
  sf_zero (SFsub 53 1024 x y) = SFeqb y x.
Proof.
  intros (Vx & Fx) (Vy & Fy).
  assert (Hp : Prec_gt_0 53) by reflexivity. assert (Hm : Prec_lt_emax 53 1024) by reflexivity.
  set (bx := SF2B x Vx). set (by_ := SF2B y Vy).
  assert (Ex : x = B2SF bx) by (unfold bx; now rewrite B2SF_SF2B).
  assert (Ey : y = B2SF by_) by (unfold by_; now rewrite B2SF_SF2B).
  assert (Gx : is_finite bx = true) by (unfold bx; rewrite is_finite_SF2B; destruct x; cbn in *; tauto).
  assert (Gy : is_finite by_ = true) by (unfold by_; rewrite is_finite_SF2B; destruct y; cbn in *; tauto).
  rewrite Ex, Ey. rewrite (sub_equiv 53 1024 Hp Hm).
  change (SFeqb (B2SF by_) (B2SF bx)) with (Beqb by_ bx). rewrite Beqb_correct by assumption.
  pose proof (Bminus_correct 53 1024 Hp Hm mode_NE bx by_ Gx Gy) as H.
  assert (Ne : (B2R bx - B2R by_ <> 0)%R -> round radix2 (SpecFloat.fexp 53 1024) (round_mode mode_NE) (B2R bx - B2R by_) <> 0%R).
  { intros K. apply round_plus_neq_0; try typeclasses eauto.
    - apply generic_format_B2R.
    - apply generic_format_opp, generic_format_B2R.
    - exact K. }
  destruct (Rlt_bool _ _) eqn:El.
  - destruct H as (H & F & _). destruct (Req_bool_spec (B2R by_) (B2R bx)) as [E|E].
    + rewrite E, Rminus_diag_eq, round_0 in H by (reflexivity || typeclasses eauto).
      destruct (Bminus mode_NE bx by_) as [s|s| |s m e B]; cbn in *; try discriminate; [reflexivity|].
      exfalso. apply eq_0_F2R in H. cbn in H. destruct s; discriminate.
    + assert (K : (B2R bx - B2R by_ <> 0)%R) by lra. apply Ne in K. rewrite <- H in K.
      destruct (Bminus mode_NE bx by_); cbn in *; try reflexivity. now contradiction K.
  - destruct H as (H & _). destruct (Req_bool_spec (B2R by_) (B2R bx)) as [E|E].
    + rewrite E, Rminus_diag_eq, round_0, Rabs_R0 in El by (reflexivity || typeclasses eauto).
      exfalso. revert El. rewrite Rlt_bool_true; [discriminate|]. apply bpow_gt_0.
    + rewrite H. unfold binary_overflow. cbn. reflexivity.
Qed.
Local Open Scope Z_scope.

Theorem C132_empty_range :
  (forall junk xs lo hi signed bits,
     (exists e, quantize_float01 exact junk xs lo hi signed bits = Err e) <-> (lo == hi)%Q) /\
  (* in floats; the range consists of Python floats, the data of binary(p, m) ones *)
  (forall p m junk xs lo hi signed bits, finite_float lo -> finite_float hi ->
     (exists e, quantize_float01 (ieee p m) junk xs lo hi signed bits = Err e) <-> SFeqb lo hi = true).
Proof.
  split.
  - intros junk xs lo hi s b. unfold quantize_float01. cbn [exact sc_zero sc_sub].
    destruct (Qeq_bool (hi - lo) 0) eqn:E.
    + apply Qeq_bool_iff in E. split; [|eauto]. intros _. apply (Qplus_inj_r _ _ (- lo)%Q). rewrite Qplus_opp_r. symmetry. exact E.
    + split; [intros (e & [=])|]. intros H. apply Qeq_bool_neq in E. destruct E. rewrite <- H. apply Qplus_opp_r.
  - intros p m junk xs lo hi s b Hl Hh. unfold quantize_float01. cbn [ieee sc_zero sc_sub].
    rewrite sub_zero by assumption. destruct (SFeqb lo hi); split; eauto; [intros (e & [=])|discriminate].
Qed.
Print Assumptions C132_empty_range.
Example C132_case : let one := S754_finite false 4503599627370496 (-52) in
  finite_float one /\ finite_float (S754_zero true) /\
  quantize_float01 float32 (fun _ => 0) [S754_nan] one one true 16 = Err OtherError /\
  quantize_float01 float32 (fun _ => 0) [] (S754_zero true) (S754_zero false) true 16 = Err OtherError /\
  exists r, quantize_float01 float32 (fun _ => 0) [S754_nan] (S754_zero true) one true 16 = Ok r.
Proof. cbn zeta. repeat split; try exact I. eexists. vm_compute. reflexivity. Qed.
