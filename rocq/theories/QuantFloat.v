(* Quantization in IEEE arithmetic with the default range [0, 1].
   Flocq relates the floats of Coq.Floats.SpecFloat to real numbers. *)
From Verif Require Import Py QuantModel.
From Coq Require Import Reals Lra ZArith Floats.SpecFloat.
From Flocq Require Import Core.Core IEEE754.BinarySingleNaN.
Open Scope Z_scope.

Section Format.
Context (prec emax : Z) (Hp : Prec_gt_0 prec) (Hm : Prec_lt_emax prec emax).
Notation bf := (binary_float prec emax).
Notation fexp := (SpecFloat.fexp prec emax).
Notation rnd := (round radix2 fexp (round_mode mode_NE)).

Lemma rne_equiv s m l : round_nearest_even m l = choice_mode mode_NE s m l.
Proof. case l; [reflexivity|intro c]. case c; [ | reflexivity..]. now simpl; unfold Round.cond_incr; case Z.even. Qed.

Lemma round_aux_equiv sx mx ex lx :
  SpecFloat.binary_round_aux prec emax sx mx ex lx = binary_round_aux prec emax mode_NE sx mx ex lx.
Proof.
  unfold SpecFloat.binary_round_aux, binary_round_aux. set (mrse' := shr_fexp _ _ _ _ _).
  case mrse'; intros mrs' e'; simpl. now rewrite (rne_equiv sx).
Qed.

Lemma round_equiv s m e : SpecFloat.binary_round prec emax s m e = binary_round prec emax mode_NE s m e.
Proof.
  unfold SpecFloat.binary_round, binary_round, shl_align_fexp.
  set (mez := shl_align _ _ _); case mez as [mz ez]. apply round_aux_equiv.
Qed.

Lemma normalize_equiv m e szero :
  SpecFloat.binary_normalize prec emax m e szero = B2SF (binary_normalize prec emax Hp Hm mode_NE m e szero).
Proof.
  case m as [ | p | p].
  - now simpl.
  - simpl; rewrite B2SF_SF2B; apply round_equiv.
  - simpl; rewrite B2SF_SF2B; apply round_equiv.
Qed.

Lemma mul_equiv : forall x y : bf, SFmul prec emax (B2SF x) (B2SF y) = B2SF (Bmult mode_NE x y).
Proof.
  intros [sx|sx| |sx mx ex Bx] [sy|sy| |sy my ey By]; [now trivial.. | ].
  simpl. rewrite B2SF_SF2B. apply round_aux_equiv.
Qed.

Lemma add_equiv : forall x y : bf, SFadd prec emax (B2SF x) (B2SF y) = B2SF (Bplus mode_NE x y).
Proof.
  intros [sx|sx| |sx mx ex Bx] [sy|sy| |sy my ey By]; [now (trivial || simpl; case Bool.eqb).. | ].
  apply normalize_equiv.
Qed.

Lemma sub_equiv : forall x y : bf, SFsub prec emax (B2SF x) (B2SF y) = B2SF (Bminus mode_NE x y).
Proof.
  intros [sx|sx| |sx mx ex Bx] [sy|sy| |sy my ey By]; [now (trivial || simpl; case Bool.eqb).. | ].
  simpl. unfold Zminus. rewrite <- cond_Zopp_negb. apply normalize_equiv.
Qed.

Instance vexp : Valid_exp fexp := FLT_exp_valid _ _.

Lemma small_lt_emax : forall r n, (0 <= n < 2 ^ prec)%Z -> (0 <= r <= IZR n)%R -> (Rabs r < bpow radix2 emax)%R.
Proof.
  intros r n Hn Hr. rewrite Rabs_pos_eq by lra.
  apply Rle_lt_trans with (IZR n); [lra|]. apply Rlt_le_trans with (IZR (2 ^ prec)); [apply IZR_lt; lia|].
  change 2 with (radix_val radix2). rewrite IZR_Zpower.
  - apply bpow_le. red in Hm. lia.
  - red in Hp. lia.
Qed.

Lemma int_format : forall n, 0 <= n < 2 ^ prec -> generic_format radix2 fexp (IZR n).
Proof.
  intros n Hn. change (fexp) with (FLT_exp (SpecFloat.emin prec emax) prec).
  apply generic_format_FLT. exists (Float radix2 n 0).
  - unfold F2R. cbn. lra.
  - cbn [Fnum]. rewrite Z.abs_eq by lia. exact (proj2 Hn).
  - cbn [Fexp]. unfold SpecFloat.emin. red in Hm, Hp. lia.
Qed.

Lemma rnd_between : forall r a b, 0 <= a -> a <= b < 2 ^ prec -> (IZR a <= r <= IZR b)%R -> (IZR a <= rnd r <= IZR b)%R.
Proof.
  intros r a b Ha Hb [H1 H2]. split.
  - apply round_ge_generic; try typeclasses eauto; [apply int_format; lia | exact H1].
  - apply round_le_generic; try typeclasses eauto; [apply int_format; lia | exact H2].
Qed.

(* the value handed to the cast lies between the two integers *)
Lemma scaled_between : forall (y f c : bf) N k, 0 <= N -> 0 <= k -> N + k < 2 ^ prec ->
  is_finite y = true -> (0 <= B2R y <= 1)%R -> is_finite f = true -> B2R f = IZR N ->
  is_finite c = true -> B2R c = IZR k ->
  let v := Bplus mode_NE (Bmult mode_NE y f) c in
  is_finite v = true /\ (IZR k <= B2R v <= IZR (N + k))%R /\
  B2R v = rnd (rnd (B2R y * IZR N) + IZR k).
Proof.
  intros y f c N k HN Hk Hs Fy Ry Ff Rf Fc Rc v.
  assert (P : (IZR 0 <= B2R y * B2R f <= IZR N)%R).
  { rewrite Rf. assert (0 <= IZR N)%R by (apply (IZR_le 0); lia).
    destruct Ry as [R1 R2]. split; [apply Rmult_le_pos; lra|].
    rewrite <- (Rmult_1_l (IZR N)) at 2. apply Rmult_le_compat_r; lra. }
  pose proof (rnd_between _ 0 N ltac:(lia) ltac:(lia) P) as P1.
  pose proof (Bmult_correct prec emax Hp Hm mode_NE y f) as M.
  rewrite Rlt_bool_true in M by (eapply (small_lt_emax _ N); [lia | exact P1]).
  destruct M as [M1 [M2 _]]. rewrite Fy, Ff in M2. cbn in M2.
  assert (S : (IZR k <= B2R (Bmult mode_NE y f) + B2R c <= IZR (N + k))%R).
  { rewrite M1, Rc, plus_IZR. lra. }
  pose proof (rnd_between _ k (N + k) ltac:(lia) ltac:(lia) S) as S1.
  pose proof (Bplus_correct prec emax Hp Hm mode_NE (Bmult mode_NE y f) c M2 Fc) as A.
  assert (0 <= IZR k)%R by (apply (IZR_le 0); lia).
  rewrite Rlt_bool_true in A by (eapply (small_lt_emax _ (N + k)); [lia | lra]).
  destruct A as [A1 [A2 _]]. split; [exact A2|]. split; [unfold v; rewrite A1; exact S1|].
  unfold v. rewrite A1, M1, Rf, Rc. reflexivity.
Qed.

(* truncation of a non-negative float *)
Lemma trunc_floor : forall v : bf, is_finite v = true -> (0 <= B2R v)%R ->
  sf_trunc (B2SF v) = Some (Zfloor (B2R v)).
Proof.
  intros [s|s| |s m e B] F P; try discriminate; cbn [B2SF sf_trunc B2R].
  - f_equal. symmetry. apply (Zfloor_IZR 0).
  - cbn [B2R] in P. destruct s.
    + exfalso. apply Rle_not_lt in P. apply P. apply F2R_lt_0. reflexivity.
    + f_equal. cbn [cond_Zopp]. symmetry. destruct (0 <=? e) eqn:E; [apply Z.leb_le in E | apply Z.leb_gt in E].
      * unfold F2R. cbn [Fnum Fexp]. rewrite <- IZR_Zpower by exact E. rewrite <- mult_IZR. apply Zfloor_IZR.
      * unfold F2R. cbn [Fnum Fexp]. rewrite <- (Z.opp_involutive e) at 1. rewrite bpow_opp.
        rewrite <- IZR_Zpower by lia. apply Zfloor_div. cbn. apply Z.pow_nonzero; lia.
Qed.

(* clipping to [0, 1] *)
Lemma clip_unit : forall (one x : bf), is_finite one = true -> B2R one = 1%R -> is_nan x = false ->
  exists y : bf, (if SFleb (B2SF one) (if SFleb (B2SF x) (S754_zero false) then S754_zero false else B2SF x)
                  then B2SF one else (if SFleb (B2SF x) (S754_zero false) then S754_zero false else B2SF x)) = B2SF y /\
    is_finite y = true /\
    (match x with
     | B754_infinity s => B2R y = (if s then 0 else 1)%R
     | _ => B2R y = Rmin (Rmax (B2R x) 0) 1
     end).
Proof.
  intros one x F1 R1 Hn.
  change (S754_zero false) with (B2SF (B754_zero false : bf)).
  assert (Z1 : SFleb (B2SF one) (B2SF (B754_zero false : bf)) = false).
  { change (SFleb _ _) with (Bleb one (B754_zero false)). rewrite Bleb_correct by auto. rewrite R1.
    apply Rle_bool_false. cbn. lra. }
  destruct x as [s|[|]| |s m e B]; try discriminate.
  - replace (SFleb (B2SF (B754_zero s)) (B2SF (B754_zero false : bf))) with true by (destruct s; reflexivity).
    rewrite Z1. exists (B754_zero false). repeat split. cbn. rewrite Rmax_left, Rmin_left; lra.
  - replace (SFleb (B2SF (B754_infinity true : bf)) (B2SF (B754_zero false : bf))) with true by reflexivity.
    rewrite Z1. exists (B754_zero false). repeat split.
  - replace (SFleb (B2SF (B754_infinity false : bf)) (B2SF (B754_zero false : bf))) with false by reflexivity.
    replace (SFleb (B2SF one) (B2SF (B754_infinity false : bf))) with true
      by (destruct one; try discriminate; reflexivity).
    exists one. auto.
  - set (x := B754_finite s m e B : bf). assert (Fx : is_finite x = true) by reflexivity.
    assert (L0 : SFleb (B2SF x) (B2SF (B754_zero false : bf)) = Rle_bool (B2R x) 0).
    { change (SFleb _ _) with (Bleb x (B754_zero false)). rewrite Bleb_correct by auto. reflexivity. }
    rewrite L0. destruct (Rle_bool_spec (B2R x) 0).
    + rewrite Z1. exists (B754_zero false). repeat split. cbn [B2R]. rewrite Rmax_right, Rmin_left; lra.
    + assert (L1 : SFleb (B2SF one) (B2SF x) = Rle_bool (B2R one) (B2R x)).
      { change (SFleb _ _) with (Bleb one x). rewrite Bleb_correct by auto. reflexivity. }
      rewrite L1. rewrite R1. destruct (Rle_bool_spec 1 (B2R x)).
      * exists one. repeat split; auto. rewrite R1, Rmax_left by lra. rewrite Rmin_right; lra.
      * exists x. repeat split; auto. rewrite Rmax_left by lra. rewrite Rmin_left; lra.
Qed.

(* y - 0 *)
Lemma minus_zero : forall y : bf, is_finite y = true ->
  exists y' : bf, SFsub prec emax (B2SF y) (S754_zero false) = B2SF y' /\ is_finite y' = true /\ B2R y' = B2R y.
Proof.
  intros [s|s| |s m e B] F; try discriminate.
  - destruct s; cbn; [exists (B754_zero true) | exists (B754_zero false)]; auto.
  - exists (B754_finite s m e B). auto.
Qed.

(* the real number a non-NaN datum is clipped to *)
Definition unit_value (x : spec_float) : R :=
  match x with
  | S754_infinity s => if s then 0 else 1
  | S754_finite s m e => Rmin (Rmax (F2R (Float radix2 (cond_Zopp s (Zpos m)) e)) 0) 1
  | _ => 0
  end%R.

Lemma unit_value_in : forall x, (0 <= unit_value x <= 1)%R.
Proof.
  intros [s|[|]| |s m e]; cbn [unit_value]; try lra.
  set (r := F2R _). unfold Rmin, Rmax. repeat (destruct Rle_dec); lra.
Qed.

Lemma code_float : forall x one f c N k, valid_binary prec emax x = true -> sf_nan x = false ->
  valid_binary prec emax one = true -> SF2R radix2 one = 1%R -> is_finite_SF one = true ->
  valid_binary prec emax f = true -> SF2R radix2 f = IZR N -> is_finite_SF f = true ->
  valid_binary prec emax c = true -> SF2R radix2 c = IZR k -> is_finite_SF c = true ->
  0 <= N -> 0 <= k -> N + k < 2 ^ prec ->
  exists z,
  sf_trunc (SFadd prec emax (SFmul prec emax (SFsub prec emax
     (let y := if SFleb x (S754_zero false) then S754_zero false else x in
      if SFleb one y then one else y) (S754_zero false)) f) c) = Some z /\
  k <= z <= N + k /\ z = Zfloor (rnd (rnd (unit_value x * IZR N) + IZR k)).
Proof.
  intros x one f c N k Vx Nx V1 R1 F1 Vf Rf Ff Vc Rc Fc HN Hk Hs.
  destruct (clip_unit (SF2B one V1) (SF2B x Vx)) as [y [Ey [Fy Ry]]].
  - rewrite is_finite_SF2B. exact F1.
  - rewrite B2R_SF2B. exact R1.
  - destruct x; try discriminate; reflexivity.
  - rewrite !B2SF_SF2B in Ey. cbv zeta. rewrite Ey.
    destruct (minus_zero y Fy) as [y' [Ey' [Fy' Ry']]]. rewrite Ey'.
    rewrite <- (B2SF_SF2B _ _ f Vf), mul_equiv, <- (B2SF_SF2B _ _ c Vc), add_equiv.
    assert (U : B2R y = unit_value x).
    { destruct x as [s|s| |s m e]; try discriminate; cbn [SF2B] in Ry; cbn [unit_value]; rewrite Ry; auto.
      cbn [B2R]. rewrite Rmax_left, Rmin_left; lra. }
    pose proof (unit_value_in x) as Hu.
    destruct (scaled_between y' (SF2B f Vf) (SF2B c Vc) N k) as [F [B E]]; auto.
    + rewrite Ry', U. exact Hu.
    + rewrite is_finite_SF2B. exact Ff.
    + rewrite B2R_SF2B. exact Rf.
    + rewrite is_finite_SF2B. exact Fc.
    + rewrite B2R_SF2B. exact Rc.
    + cbv zeta in F, B, E. assert (0 <= IZR k)%R by (apply (IZR_le 0); lia).
      rewrite trunc_floor by (auto; lra). eexists. split; [reflexivity|]. split.
      * split; [apply Zfloor_lub; lra|]. apply (fun h => Zlt_succ_le _ _ h). apply lt_IZR.
        rewrite succ_IZR. apply Rle_lt_trans with (IZR (N + k)); [|lra].
        apply Rle_trans with (2 := proj2 B). apply Zfloor_lb.
      * rewrite E, Ry', U. reflexivity.
Qed.

(* integers below 2^prec are converted exactly *)
Lemma int_float : forall n, 0 <= n < 2 ^ prec ->
  valid_binary prec emax (sf_of_Z prec emax n) = true /\
  SF2R radix2 (sf_of_Z prec emax n) = IZR n /\ is_finite_SF (sf_of_Z prec emax n) = true.
Proof.
  intros n Hn. unfold sf_of_Z. rewrite normalize_equiv.
  pose proof (binary_normalize_correct prec emax Hp Hm mode_NE n 0 false) as C. cbv zeta in C.
  replace (F2R (Float radix2 n 0)) with (IZR n) in C by (unfold F2R; cbn; lra).
  rewrite (round_generic radix2 fexp (round_mode mode_NE) (IZR n)) in C by (apply int_format; exact Hn).
  rewrite Rlt_bool_true in C.
  2:{ apply (small_lt_emax _ n Hn). split; [apply (IZR_le 0); lia | lra]. }
  destruct C as [C1 [C2 _]]. split; [apply valid_binary_B2SF|]. rewrite SF2R_B2SF. split; [exact C1|].
  rewrite is_finite_SF_B2SF. exact C2.
Qed.

Lemma unit_value_mono : forall x y, valid_binary prec emax x = true -> valid_binary prec emax y = true ->
  SFleb x y = true -> (unit_value x <= unit_value y)%R.
Proof.
  intros x y Vx Vy L. pose proof (unit_value_in x). pose proof (unit_value_in y).
  assert (Clip : forall s m e, unit_value (S754_finite s m e) =
                 Rmin (Rmax (F2R (Float radix2 (cond_Zopp s (Zpos m)) e)) 0) 1) by reflexivity.
  assert (Fn : is_finite_SF x = true -> is_finite_SF y = true -> (SF2R radix2 x <= SF2R radix2 y)%R).
  { intros F1 F2. rewrite <- (B2R_SF2B _ _ x Vx), <- (B2R_SF2B _ _ y Vy).
    pose proof (Bleb_correct prec emax (SF2B x Vx) (SF2B y Vy)) as C.
    rewrite !is_finite_SF2B in C. specialize (C F1 F2). unfold Bleb in C. rewrite !B2SF_SF2B, L in C.
    destruct (Rle_bool_spec (B2R (SF2B x Vx)) (B2R (SF2B y Vy))); [auto | discriminate]. }
  destruct x as [sx|[|]| |sx mx ex]; try (cbn [unit_value] in *; lra); try (destruct y as [sy|[|]| |sy my ey]; discriminate).
  - destruct y as [sy|[|]| |sy my ey]; try discriminate. cbn [unit_value]. lra.
  - destruct y as [sy|[|]| |sy my ey]; try discriminate.
    + specialize (Fn eq_refl eq_refl). cbn [SF2R] in Fn. cbn [unit_value]. rewrite Rmax_right by lra. rewrite Rmin_left; lra.
    + cbn [unit_value] in *. lra.
    + specialize (Fn eq_refl eq_refl). cbn [SF2R] in Fn. cbn [unit_value].
      apply Rle_min_compat_r. apply Rle_max_compat_r. exact Fn.
Qed.

Lemma code_mono : forall u v N k, 0 <= N -> (u <= v)%R ->
  Zfloor (rnd (rnd (u * IZR N) + IZR k)) <= Zfloor (rnd (rnd (v * IZR N) + IZR k)).
Proof.
  intros u v N k HN L. apply Zfloor_le. apply round_le; try typeclasses eauto.
  apply Rplus_le_compat_r. apply round_le; try typeclasses eauto.
  apply Rmult_le_compat_r; [apply (IZR_le 0); lia | exact L].
Qed.

End Format.

(* the element formats and code sizes where every code is a float *)
Definition enough_bits (p e bits : Z) : Prop :=
  p = 24 /\ e = 128 /\ (bits = 8 \/ bits = 16) \/
  p = 53 /\ e = 1024 /\ (bits = 8 \/ bits = 16 \/ bits = 32).

Definition py0 := sf_of_Z 53 1024 0.
Definition py1 := sf_of_Z 53 1024 1.

(* the code of a datum, in real numbers *)
Definition unit_code (p e bits : Z) (signed : bool) (x : spec_float) : Z :=
  Zfloor (round radix2 (SpecFloat.fexp p e) (round_mode mode_NE)
       (round radix2 (SpecFloat.fexp p e) (round_mode mode_NE) (unit_value x * IZR (iinfo_max signed bits - code_min signed))
        + IZR (code_min signed))).

Lemma unit_setup : forall p e bits s, enough_bits p e bits -> let k := code_min s in let N := iinfo_max s bits - code_min s in
  exists (Hp : Prec_gt_0 p) (Hm : Prec_lt_emax p e), 0 <= k /\ 0 <= N /\ 1 < 2 ^ p /\ N + k < 2 ^ p /\
    to_arr (ieee p e) py0 = S754_zero false /\ to_arr (ieee p e) py1 = sf_of_Z p e 1 /\
    to_arr (ieee p e) (sc_int (ieee p e) k) = sf_of_Z p e k /\
    to_arr (ieee p e) (sc_div (ieee p e) (sc_int (ieee p e) N) (sc_sub (ieee p e) py1 py0)) = sf_of_Z p e N /\
    iinfo_min s bits <= k /\ N + k = iinfo_max s bits.
Proof.
  intros p e bits s He k N. unfold k, N.
    destruct He as [[-> [-> [-> | ->]]] | [-> [-> [-> | [-> | ->]]]]]; destruct s;
    (unshelve eexists; [red; lia|]); (unshelve eexists; [red; lia|]); vm_compute; repeat split; discriminate.
Qed.

Lemma unit_codes : forall p e bits signed x, enough_bits p e bits -> valid_binary p e x = true -> sf_nan x = false ->
  code_min signed <= unit_code p e bits signed x <= iinfo_max signed bits /\
  forall junk, quantize1 (ieee p e) junk py0 py1 signed bits x = unit_code p e bits signed x.
Proof.
  intros p e bits s x He Vx Nx. pose proof (unit_setup p e bits s He) as G. cbv zeta in G. unfold unit_code.
  set (k := code_min s) in *. set (N := iinfo_max s bits - k) in *.
  destruct G as [Hp [Hm [Hk [HN [H1 [HNk [E0 [E1 [Ek [EN [Hmin Hmax]]]]]]]]]]].
    destruct (int_float p e Hp Hm 1) as [V1 [R1 F1]]; [lia|].
    destruct (int_float p e Hp Hm k) as [Vk [Rk Fk]]; [lia|].
    destruct (int_float p e Hp Hm N) as [VN [RN FN]]; [lia|].
    destruct (code_float p e Hp Hm x _ _ _ N k Vx Nx V1 R1 F1 VN RN FN Vk Rk Fk HN Hk HNk) as [z [Ez [Bz Zz]]].
    rewrite <- Zz. rewrite <- Hmax. split; [exact Bz|]. intros junk.
    unfold quantize1. change (a_nan (ieee p e) x) with (sf_nan x). rewrite Nx.
    unfold astype, scaled, clip. cbv zeta. fold k. fold N. rewrite E0, E1, Ek, EN.
    cbv zeta in Ez.
    match goal with |- match ?t with _ => _ end = _ => change t with
      (sf_trunc (SFadd p e (SFmul p e (SFsub p e
        (if SFleb (sf_of_Z p e 1) (if SFleb x (S754_zero false) then S754_zero false else x)
         then sf_of_Z p e 1 else (if SFleb x (S754_zero false) then S754_zero false else x)) (S754_zero false))
        (sf_of_Z p e N)) (sf_of_Z p e k))) end.
    rewrite Ez. rewrite <- Hmax. replace (_ && _)%bool with true; [reflexivity|].
    symmetry. apply andb_true_intro. split; apply Z.leb_le; lia.
Qed.

Lemma quantize_unit : forall p e bits signed, enough_bits p e bits ->
  exists code : spec_float -> Z,
  (forall x, valid_binary p e x = true -> sf_nan x = false ->
     code_min signed <= code x <= iinfo_max signed bits /\
     forall junk, quantize1 (ieee p e) junk py0 py1 signed bits x = code x) /\
  (forall x y, valid_binary p e x = true -> valid_binary p e y = true -> SFleb x y = true -> code x <= code y).
Proof.
  intros p e bits s He.
  exists (unit_code p e bits s). split.
  - intros x Vx Nx. now apply unit_codes.
  - destruct (unit_setup p e bits s He) as [Hp [Hm [_ [HN _]]]].
    intros x y Vx Vy L. apply code_mono; [exact Hp | exact HN |]. apply (unit_value_mono p e); auto.
Qed.
