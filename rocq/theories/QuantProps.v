(* Properties of quantization (C55-C58, C70, C75-C77) *)
From Verif Require Import Py PyProofs QuantModel QuantSpec QuantProofs QuantFloat.
From Coq Require Import QArith Qround Lqa Floats.SpecFloat.
Open Scope Z_scope.

Lemma zero_extent : forall lo hi : Q, (lo < hi)%Q -> Qeq_bool (hi - lo) 0 = false.
Proof.
  intros lo hi H. destruct (Qeq_bool (hi - lo) 0) eqn:E; auto. apply Qeq_bool_eq in E. lra.
Qed.

Lemma quantize_ok : forall junk xs lo hi s b, (lo < hi)%Q ->
  quantize_float01 exact junk xs lo hi s b =
  Ok (map (quantize1 exact junk lo hi s b) xs,
      Quant (Some lo) (Some hi) (Some (code_min s)) (Some (iinfo_max s b)) (Some (VInt (code_nan s b)))).
Proof.
  intros. unfold quantize_float01. cbn [exact sc_zero sc_sub]. rewrite zero_extent by auto. reflexivity.
Qed.

Lemma Forall2_map_r : forall {A B} (P : A -> B -> Prop) (f : A -> B) l,
  (forall a, In a l -> P a (f a)) -> Forall2 P l (map f l).
Proof. induction l; cbn; constructor; auto. Qed.

Lemma nodata_fits : forall s b, 2 <= b -> representable (VInt (code_nan s b)) (DInt s b) = true.
Proof.
  intros s b Hb. cbn [representable py_int_of]. pose proof (iinfo_min_le s b Hb).
  pose proof (iinfo_max_pos s b Hb). apply andb_true_intro. split; apply Z.leb_le; lia.
Qed.

(* C55: what comes back from a round trip is below the data by less than a step;
   infinities come back as the ends of the range, NaN as NaN *)
Theorem C55_round_trip : forall junk xs lo hi signed bits, 2 <= bits -> (lo < hi)%Q ->
  exists codes q ys,
    quantize_float01 exact junk xs lo hi signed bits = Ok (codes, q) /\
    dequantize exact (DInt signed bits) codes q = Ok ys /\
    Forall2 (fun x y => match x with
      | Fin v => (lo <= v <= hi)%Q -> exists w, y = Fin w /\ (w <= v)%Q /\
          (v - w < (hi - lo) / inject_Z (iinfo_max signed bits - code_min signed))%Q
      | PInf => exists w, y = Fin w /\ (w == hi)%Q
      | NInf => exists w, y = Fin w /\ (w == lo)%Q
      | Nan => y = Nan
      end) xs ys.
Proof.
  intros junk xs lo hi s b Hb H. rewrite quantize_ok by exact H.
  eexists _, _, _. split; [reflexivity|].
  unfold dequantize. cbn [quant_max quant_min orig_min orig_max nodata].
  pose proof (iinfo_max_pos s b Hb) as Hpos.
  assert (E0 : (iinfo_max s b - code_min s =? 0) = false) by (apply Z.eqb_neq; lia). rewrite E0.
  split; [reflexivity|]. rewrite map_map. apply Forall2_map_r.
  assert (Hne : forall k, code_min s <= k ->
    representable (VInt (code_nan s b)) (DInt s b) && int_equals k (VInt (code_nan s b)) = false).
  { intros k Hk. apply andb_false_intro2. cbn [int_equals]. apply Z.eqb_neq.
    pose proof (iinfo_min_le s b Hb). lia. }
  assert (Hend : forall x, code_min s <= qcode lo hi s b x).
  { intro x. apply (quantize1_fin junk lo hi s b x H Hb). }
  intros x _. destruct x as [v | | | ].
  - intros Hv. destruct (quantize1_fin junk lo hi s b v H Hb) as [-> Hr].
    rewrite dequantize1_fin by (apply Hne; lia).
    eexists. split; [reflexivity|].
    destruct (qdeq_qcode lo hi s b v H Hb Hv) as [H1 H2]. split; [exact H1 | exact H2].
  - rewrite quantize1_pinf by auto. rewrite dequantize1_fin by (apply Hne; auto).
    rewrite qcode_high by lra. eexists. split; [reflexivity|].
    pose proof (extent_pos s b Hb) as He. unfold extent in He. cbn [exact sc_div sc_sub sc_int].
    rewrite <- inject_Z_opp, <- inject_Z_plus. fold (Z.sub (iinfo_max s b) (code_min s)). field. lra.
  - rewrite quantize1_ninf by auto. rewrite dequantize1_fin by (apply Hne; auto).
    rewrite qcode_low by lra. eexists. split; [reflexivity|]. ring.
  - unfold dequantize1, quantize1. cbn [exact a_nan is_nan]. rewrite nodata_fits by auto.
    cbn [int_equals]. rewrite Z.eqb_refl. reflexivity.
Qed.
Print Assumptions C55_round_trip.

(* uint8 on [0, 1]: 1/3 -> 85 -> 84/254 *)
Example C55_case :
  quantize_float01 exact (fun _ => 0) [Fin (1#3); Nan; PInf] 0%Q 1%Q false 8 =
    Ok ([85; 0; 255], Quant (Some 0%Q) (Some 1%Q) (Some 1) (Some 255) (Some (VInt 0))) /\
  exists y, dequantize exact (DInt false 8) [85; 0; 255]
    (Quant (Some 0%Q) (Some 1%Q) (Some 1) (Some 255) (Some (VInt 0))) = Ok [Fin y; Nan; Fin (254 * (1 / 254) + 0)] /\
    (y == 84 # 254)%Q.
Proof. split; [vm_compute; reflexivity|]. eexists. split; vm_compute; reflexivity. Qed.

(* C56: codes of non-NaN data lie in [quant_min, quant_max], the nodata code
   does not, and all of them are values of the dtype *)
Theorem C56_nodata_apart : forall junk xs lo hi signed bits codes q, 2 <= bits -> (lo < hi)%Q ->
  quantize_float01 exact junk xs lo hi signed bits = Ok (codes, q) ->
  exists qmin qmax nd,
    quant_min q = Some qmin /\ quant_max q = Some qmax /\ nodata q = Some (VInt nd) /\
    fits signed bits qmin /\ fits signed bits qmax /\ fits signed bits nd /\
    ~ (qmin <= nd <= qmax) /\
    Forall2 (fun x k => if is_nan x then k = nd else qmin <= k <= qmax) xs codes.
Proof.
  intros junk xs lo hi s b codes q Hb H E. rewrite quantize_ok in E by exact H. inversion E; subst; clear E.
  exists (code_min s), (iinfo_max s b), (code_nan s b).
  pose proof (iinfo_min_le s b Hb) as H1. pose proof (iinfo_max_pos s b Hb) as H2.
  assert (F : forall z, iinfo_min s b <= z <= iinfo_max s b -> fits s b z).
  { intros z Hz. unfold fits, iinfo_min, iinfo_max in *. destruct s; lia. }
  do 3 (split; [reflexivity|]). do 3 (split; [apply F; lia|]). split; [lia|].
  apply Forall2_map_r. intros x _. destruct x as [v | | | ]; cbn [is_nan].
  - destruct (quantize1_fin junk lo hi s b v H Hb) as [-> Hr]. exact Hr.
  - rewrite quantize1_pinf by auto. apply (quantize1_fin junk lo hi s b hi H Hb).
  - rewrite quantize1_ninf by auto. apply (quantize1_fin junk lo hi s b lo H Hb).
  - reflexivity.
Qed.
Print Assumptions C56_nodata_apart.

Example C56_case : exists q, quantize_float01 exact (fun _ => 5) [Fin 7; Fin (-3); Nan] (1#2)%Q 2%Q true 16 =
  Ok ([32767; 0; -9999], q).
Proof. eexists. vm_compute. reflexivity. Qed.

(* C57: monotone, clipping to the codes of the ends of the range *)
Theorem C57_monotone : forall junk lo hi signed bits x y kx ky q, 2 <= bits -> (lo < hi)%Q ->
  quantize_float01 exact junk [x; y] lo hi signed bits = Ok ([kx; ky], q) ->
  (le x y -> kx <= ky) /\
  (le x (Fin lo) -> Some kx = quant_min q) /\ (le (Fin hi) x -> Some kx = quant_max q).
Proof.
  intros junk lo hi s b x y kx ky q Hb H E. rewrite quantize_ok in E by exact H.
  cbn [map] in E. injection E as Ex Ey <-. cbn [quant_min quant_max].
  assert (C : forall v k, quantize1 exact junk lo hi s b v = k ->
    match v with Fin r => k = qcode lo hi s b r | PInf => k = qcode lo hi s b hi
               | NInf => k = qcode lo hi s b lo | Nan => True end).
  { intros v k <-. destruct v; auto.
    - apply (quantize1_fin junk lo hi s b q H Hb).
    - apply quantize1_pinf; auto.
    - apply quantize1_ninf; auto. }
  apply C in Ex. apply C in Ey.
  assert (Top : forall r, qcode lo hi s b r <= qcode lo hi s b hi).
  { intro r. rewrite (qcode_high lo hi s b hi) by lra. apply (quantize1_fin junk lo hi s b r H Hb). }
  assert (Bot : forall r, qcode lo hi s b lo <= qcode lo hi s b r).
  { intro r. rewrite (qcode_low lo hi s b lo) by lra. apply (quantize1_fin junk lo hi s b r H Hb). }
  split; [|split].
  - intros L. destruct x, y; cbn [le] in L; try contradiction; subst; auto; try apply Z.le_refl.
    apply qcode_mono; auto.
  - intros L. destruct x; cbn [le] in L; try contradiction; subst kx; f_equal; apply qcode_low; auto; lra.
  - intros L. destruct x; cbn [le] in L; try contradiction; subst kx; f_equal; apply qcode_high; auto; lra.
Qed.
Print Assumptions C57_monotone.

Example C57_case : exists q, quantize_float01 exact (fun _ => 5) [Fin (1#4); Fin (1#2)] 0%Q 1%Q true 8 = Ok ([31; 63], q).
Proof. eexists. vm_compute. reflexivity. Qed.

(* C58: samples equal to a plain (bool, int, float) nodata value become NaN, the
   others follow the affine map through (quant_min, orig_min), (quant_max, orig_max) *)
Theorem C58_dequantize : forall signed bits data q qmax ys,
  Forall (fits signed bits) data -> (forall v, nodata q = Some v -> plain v) ->
  quant_max q = Some qmax -> qmax <> get (quant_min q) 0 ->
  dequantize exact (DInt signed bits) data q = Ok ys ->
  let omin := get (orig_min q) 0%Q in let omax := get (orig_max q) 1%Q in
  let qmin := get (quant_min q) 0 in
  Forall2 (fun z y =>
    ((exists v r, nodata q = Some v /\ number v = Some r /\ (r == inject_Z z)%Q) /\ y = Nan) \/
    (~ (exists v r, nodata q = Some v /\ number v = Some r /\ (r == inject_Z z)%Q) /\
     exists w, y = Fin w /\
       (w - omin == (inject_Z z - inject_Z qmin) * ((omax - omin) / (inject_Z qmax - inject_Z qmin)))%Q))
    data ys.
Proof.
  intros s b data q qmax ys Hd Hp Hm Hne E omin omax qmin.
  unfold dequantize in E. rewrite Hm in E. fold (@get Q) in E.
  change (match quant_min q with Some v => v | None => 0 end) with qmin in E.
  change (match orig_min q with Some v => v | None => sc_int exact 0 end) with omin in E.
  change (match orig_max q with Some v => v | None => sc_int exact 1 end) with omax in E.
  assert (E0 : (qmax - qmin =? 0) = false) by (apply Z.eqb_neq; fold qmin in Hne; lia).
  rewrite E0 in E. inversion E; subst ys; clear E.
  apply Forall2_map_r. intros z Hz. rewrite Forall_forall in Hd. specialize (Hd z Hz).
  set (mk := match nodata q with Some v => representable v (DInt s b) && int_equals z v | None => false end).
  assert (Hmk : mk = true <-> exists v r, nodata q = Some v /\ number v = Some r /\ (r == inject_Z z)%Q).
  { unfold mk. destruct (nodata q) as [v|] eqn:En.
    2:{ split; [discriminate|]. intros [v [r [X _]]]. discriminate. }
    specialize (Hp v eq_refl). split.
    - intros Hb. apply andb_true_iff in Hb. destruct Hb as [_ Hi].
      exists v. destruct v as [bb | n | f | | | | ]; cbn [plain] in Hp; try contradiction; cbn [number int_equals] in *.
      + apply Z.eqb_eq in Hi. subst z. eexists. split; [reflexivity|]. split; [reflexivity|].
        destruct bb; reflexivity.
      + apply Z.eqb_eq in Hi. subst z. eexists. split; [reflexivity|]. split; reflexivity.
      + destruct f; try discriminate. apply Qeq_bool_eq in Hi. eexists. split; [reflexivity|].
        split; [reflexivity|]. symmetry. exact Hi.
    - intros [v' [r [X [Hn Hr]]]]. inversion X; subst v'; clear X.
      assert (Hbd : (iinfo_min s b <=? z) && (z <=? iinfo_max s b) = true).
      { unfold fits in Hd. unfold iinfo_min, iinfo_max. apply andb_true_intro. destruct s; split; apply Z.leb_le; lia. }
      destruct v as [bb | n | f | | | | ]; cbn [plain] in Hp; try contradiction; cbn [number int_equals representable py_int_of] in *.
      + inversion Hn; subst r. assert (z = if bb then 1 else 0).
        { apply inject_Z_injective. rewrite <- Hr. destruct bb; reflexivity. }
        rewrite <- H. rewrite Hbd, Z.eqb_refl. reflexivity.
      + inversion Hn; subst r. assert (Hnz : n = z) by (apply inject_Z_injective; exact Hr). subst n. rewrite Hbd, Z.eqb_refl. reflexivity.
      + destruct f as [r0| | | ]; try discriminate. inversion Hn; subst r0; clear Hn.
        assert (Hfl : Qfloor r = z) by (rewrite (Qfloor_comp _ _ Hr); apply Qfloor_Z).
        assert (Hce : Qceiling r = z) by (rewrite (Qceiling_comp _ _ Hr); apply Qceiling_Z).
        cbn [is_integer]. rewrite Hfl.
        assert (Hqb : Qeq_bool r (inject_Z z) = true) by (apply Qeq_eq_bool; exact Hr).
        rewrite Hqb. cbn [negb]. unfold Qtrunc. rewrite Hfl, Hce.
        replace (if Qle_bool 0 r then z else z) with z by (destruct (Qle_bool 0 r); reflexivity).
        rewrite Hbd. cbn [andb]. apply Qeq_eq_bool. symmetry. exact Hr. }
  destruct mk eqn:Em.
  - left. split; [apply Hmk; reflexivity|]. apply dequantize1_nan. exact Em.
  - right. split; [intros X; apply Hmk in X; discriminate|].
    rewrite dequantize1_fin by exact Em. eexists. split; [reflexivity|].
    cbn [exact sc_div sc_sub sc_int]. unfold Z.sub. rewrite inject_Z_plus, inject_Z_opp.
    field. intros X. apply Hne. apply inject_Z_injective. fold qmin. lra.
Qed.
Print Assumptions C58_dequantize.

Example C58_case : dequantize exact (DInt false 8) [0; 10; 20]
  (Quant None (Some 4%Q) None (Some 20) (Some (VFloat (Fin (20#1))))) =
  Ok [Fin (0 * (4 / 20) + 0); Fin (10 * (4/20) + 0); Nan].
Proof. vm_compute. reflexivity. Qed.

(* C70: bool, int and float scalars *)
Theorem C70_representable : forall v signed bits, plain v ->
  (representable v (DInt signed bits) = true <->
   exists z r, number v = Some r /\ (r == inject_Z z)%Q /\ fits signed bits z).
Proof.
  intros v s b Hp.
  assert (Hf : forall z, ((iinfo_min s b <=? z) && (z <=? iinfo_max s b) = true <-> fits s b z)).
  { intro z. unfold fits, iinfo_min, iinfo_max. rewrite andb_true_iff, !Z.leb_le. destruct s; lia. }
  destruct v as [bb | n | f | | | | ]; cbn [plain] in Hp; try contradiction; cbn [representable number py_int_of].
  - rewrite Hf. split.
    + intros F. exists (if bb then 1 else 0). eexists. split; [reflexivity|]. split; [destruct bb; reflexivity | exact F].
    + intros [z [r [E [Hr F]]]]. inversion E; subst r; clear E. assert (z = if bb then 1 else 0).
      { apply inject_Z_injective. rewrite <- Hr. destruct bb; reflexivity. } subst z. exact F.
  - rewrite Hf. split.
    + intros F. exists n. eexists. split; [reflexivity|]. split; [reflexivity | exact F].
    + intros [z [r [E [Hr F]]]]. inversion E; subst r. assert (Hnz : n = z) by (apply inject_Z_injective; exact Hr). subst n. exact F.
  - destruct f as [q | | | ]; cbn [is_integer negb number].
    2-4: split; [discriminate | intros [z [r [E _]]]; discriminate].
    destruct (Qeq_bool q (inject_Z (Qfloor q))) eqn:Eq; cbn [negb].
    + apply Qeq_bool_eq in Eq.
      assert (Ht : Qtrunc q = Qfloor q).
      { unfold Qtrunc. destruct (Qle_bool 0 q); [reflexivity|]. rewrite (Qceiling_comp _ _ Eq). apply Qceiling_Z. }
      rewrite Ht, Hf. split.
      * intros F. eexists _, _. split; [reflexivity|]. split; [exact Eq | exact F].
      * intros [z [r [E [Hr F]]]]. inversion E; subst r. rewrite (Qfloor_comp _ _ Hr), Qfloor_Z. exact F.
    + split; [discriminate|]. intros [z [r [E [Hr F]]]]. inversion E; subst r.
      exfalso. assert (X : Qeq_bool q (inject_Z (Qfloor q)) = true); [|congruence].
      apply Qeq_eq_bool. rewrite (Qfloor_comp _ _ Hr), Qfloor_Z. exact Hr.
Qed.
Print Assumptions C70_representable.

Example C70_case : representable (VFloat (Fin (510#2))) (DInt false 8) = true /\
  representable (VInt 256) (DInt false 8) = false /\ representable (VFloat (Fin (1#2))) (DInt false 8) = false.
Proof. vm_compute. auto. Qed.

(* Fraction(3, 2) is truncated before the range test *)
Theorem C77_rational_representable_refuted : ~ forall q signed bits,
  representable (VRational q) (DInt signed bits) = true -> exists z, (q == inject_Z z)%Q.
Proof.
  intros H. destruct (H (3#2)%Q false 8 eq_refl) as [z Hr]. unfold Qeq in Hr. cbn in Hr. lia.
Qed.
Print Assumptions C77_rational_representable_refuted.

(* exactly what is tested is the rational rounded towards zero; so the answer is
   right for every integral rational.  Missing: the non-integral ones, for which it
   is wrong whenever they round to a value of the type. *)
Theorem C77_rational_representable_partial : forall q signed bits,
  (representable (VRational q) (DInt signed bits) = true <->
   exists z, (if Qle_bool 0 q then (inject_Z z <= q /\ q < inject_Z (z + 1))%Q
              else (inject_Z (z - 1) < q /\ q <= inject_Z z)%Q) /\ fits signed bits z) /\
  (forall z, (q == inject_Z z)%Q ->
    (representable (VRational q) (DInt signed bits) = true <-> fits signed bits z)).
Proof.
  intros q s b.
  assert (Hf : forall z, ((iinfo_min s b <=? z) && (z <=? iinfo_max s b) = true <-> fits s b z)).
  { intro z. unfold fits, iinfo_min, iinfo_max. rewrite andb_true_iff, !Z.leb_le. destruct s; lia. }
  assert (Hr : representable (VRational q) (DInt s b) = true <-> fits s b (Qtrunc q)) by (cbn; apply Hf).
  assert (Hz : forall z, (if Qle_bool 0 q then (inject_Z z <= q /\ q < inject_Z (z + 1))%Q
              else (inject_Z (z - 1) < q /\ q <= inject_Z z)%Q) <-> z = Qtrunc q).
  { intros z. unfold Qtrunc. destruct (Qle_bool 0 q).
    - split.
      + intros [A B]. apply Z.le_antisymm.
        * rewrite <- (Qfloor_Z z). now apply Qfloor_resp_le.
        * enough (Qfloor q < z + 1) by lia. rewrite Zlt_Qlt. eapply Qle_lt_trans; [apply Qfloor_le|exact B].
      + intros ->. split; [apply Qfloor_le|apply Qlt_floor].
    - split.
      + intros [A B]. apply Z.le_antisymm.
        * enough (z - 1 < Qceiling q) by lia. rewrite Zlt_Qlt. eapply Qlt_le_trans; [exact A|apply Qle_ceiling].
        * rewrite <- (Qceiling_Z z). now apply Qceiling_resp_le.
      + intros ->. split; [apply Qceiling_lt|apply Qle_ceiling]. }
  split.
  - rewrite Hr. split; [intros H; exists (Qtrunc q); split; [now apply Hz|exact H]|].
    intros (z & H & F). apply Hz in H as ->. exact F.
  - intros z E. rewrite Hr. replace z with (Qtrunc q); [tauto|]. unfold Qtrunc.
    destruct (Qle_bool 0 q); [rewrite (Qfloor_comp _ _ E); apply Qfloor_Z|rewrite (Qceiling_comp _ _ E); apply Qceiling_Z].
Qed.
Example C77_case : representable (VRational (510#2)) (DInt false 8) = true /\
  representable (VRational (-(1#2))) (DInt false 8) = true /\ representable (VRational 256) (DInt false 8) = false.
Proof. vm_compute. auto. Qed.
Print Assumptions C77_rational_representable_partial.

(* C75: quantizing what dequantize returned gives the codes back *)
Definition requantized (A : arith) junk (lo hi : sc A) signed bits codes :=
  '(_, q) <- quantize_float01 A junk [] lo hi signed bits ;;
  ys <- dequantize A (DInt signed bits) codes q ;;
  '(codes', _) <- quantize_float01 A junk ys lo hi signed bits ;; Ok codes'.

Theorem C75_codes_survive_partial : forall junk lo hi signed bits codes, 2 <= bits -> (lo < hi)%Q ->
  Forall (fun k => code_min signed <= k <= iinfo_max signed bits \/ k = code_nan signed bits) codes ->
  requantized exact junk lo hi signed bits codes = Ok codes.
Proof.
  intros junk lo hi s b codes Hb H Hc. unfold requantized. rewrite quantize_ok by exact H. cbn [bind].
  unfold dequantize. cbn [quant_max quant_min orig_min orig_max nodata].
  pose proof (iinfo_max_pos s b Hb) as Hpos.
  assert (E0 : (iinfo_max s b - code_min s =? 0) = false) by (apply Z.eqb_neq; lia). rewrite E0.
  cbn [bind]. rewrite quantize_ok by exact H. cbn [bind]. f_equal. rewrite map_map.
  rewrite <- (map_id codes) at 2. apply map_ext_in. intros k Hk. rewrite Forall_forall in Hc.
  destruct (Hc k Hk) as [Hr | ->].
  - rewrite dequantize1_fin.
    2:{ apply andb_false_intro2. cbn [int_equals]. apply Z.eqb_neq. pose proof (iinfo_min_le s b Hb). lia. }
    etransitivity; [apply (quantize1_fin junk lo hi s b _ H Hb)|]. apply (qcode_qdeq lo hi s b k H Hb Hr).
  - unfold dequantize1. rewrite nodata_fits by auto. cbn [int_equals]. rewrite Z.eqb_refl. reflexivity.
Qed.
Print Assumptions C75_codes_survive_partial.

Example C75_case : requantized exact (fun _ => 9) (1#3)%Q 5%Q false 8 [1; 17; 255; 0] = Ok [1; 17; 255; 0].
Proof. vm_compute. reflexivity. Qed.

(* in float32 the cast truncates products that fall just below an integer *)
Theorem C75_codes_survive_refuted : ~ forall junk lo hi signed bits codes, 2 <= bits -> SFltb lo hi = true ->
  Forall (fun k => code_min signed <= k <= iinfo_max signed bits \/ k = code_nan signed bits) codes ->
  requantized float32 junk lo hi signed bits codes = Ok codes.
Proof.
  intros H. specialize (H (fun _ => 0) (sf_of_Z 53 1024 0) (sf_of_Z 53 1024 1) false 8 [10]).
  assert (X : requantized float32 (fun _ => 0) (sf_of_Z 53 1024 0) (sf_of_Z 53 1024 1) false 8 [10] = Ok [9])
    by (vm_compute; reflexivity).
  rewrite X in H. assert (Y : Ok [9] = Ok [10]); [|discriminate].
  apply H; [lia | reflexivity |]. constructor; [left; vm_compute; split; discriminate | constructor].
Qed.
Print Assumptions C75_codes_survive_refuted.

(* C76: with 32 bit codes and float32 data (64 bit codes and float64 data), the
   top of the range is scaled to a value outside the dtype, whose cast is
   undefined *)
Theorem C76_cast_defined_refuted : ~ forall lo hi signed bits x junk junk',
  bits = 8 \/ bits = 16 \/ bits = 32 -> SFltb lo hi = true ->
  SFleb (to_arr float32 lo) x = true -> SFleb x (to_arr float32 hi) = true ->
  quantize_float01 float32 junk [x] lo hi signed bits = quantize_float01 float32 junk' [x] lo hi signed bits.
Proof.
  intros H.
  specialize (H (sf_of_Z 53 1024 0) (sf_of_Z 53 1024 1) true 32 (sf_of_Z 24 128 1)
                (fun _ => -2147483648) (fun _ => 2147483647)).
  assert (X : quantize_float01 float32 (fun _ => -2147483648) [sf_of_Z 24 128 1]
                (sf_of_Z 53 1024 0) (sf_of_Z 53 1024 1) true 32 <>
              quantize_float01 float32 (fun _ => 2147483647) [sf_of_Z 24 128 1]
                (sf_of_Z 53 1024 0) (sf_of_Z 53 1024 1) true 32)
    by (vm_compute; discriminate).
  apply X, H; auto; vm_compute; reflexivity.
Qed.
Print Assumptions C76_cast_defined_refuted.

Theorem C76_cast_defined_int64_refuted : ~ forall lo hi signed x junk junk',
  SFltb lo hi = true -> SFleb lo x = true -> SFleb x hi = true ->
  quantize_float01 float64 junk [x] lo hi signed 64 = quantize_float01 float64 junk' [x] lo hi signed 64.
Proof.
  intros H.
  specialize (H (sf_of_Z 53 1024 0) (sf_of_Z 53 1024 1) true (sf_of_Z 53 1024 1)
                (fun _ => -2147483648) (fun _ => 2147483647)).
  assert (X : quantize_float01 float64 (fun _ => -2147483648) [sf_of_Z 53 1024 1]
                (sf_of_Z 53 1024 0) (sf_of_Z 53 1024 1) true 64 <>
              quantize_float01 float64 (fun _ => 2147483647) [sf_of_Z 53 1024 1]
                (sf_of_Z 53 1024 0) (sf_of_Z 53 1024 1) true 64)
    by (vm_compute; discriminate).
  apply X, H; auto; vm_compute; reflexivity.
Qed.
Print Assumptions C76_cast_defined_int64_refuted.

(* what is true: with the default range [0, 1] the cast is defined for every
   float32 datum and 8 or 16 bit codes (every float64 datum, up to 32 bits), the
   codes avoid the nodata code, and they are monotone in the data *)
Theorem C76_cast_defined_partial : forall p e bits signed x y, enough_bits p e bits ->
  valid_binary p e x = true -> valid_binary p e y = true -> sf_nan x = false -> sf_nan y = false ->
  exists kx ky qmin qmax,
    (forall junk, exists q,
       quantize_float01 (ieee p e) junk [x; y] py0 py1 signed bits = Ok ([kx; ky], q) /\
       quant_min q = Some qmin /\ quant_max q = Some qmax /\
       nodata q = Some (VInt (code_nan signed bits))) /\
    qmin <= kx <= qmax /\ qmin <= ky <= qmax /\
    ~ (qmin <= code_nan signed bits <= qmax) /\ fits signed bits qmin /\ fits signed bits qmax /\
    (SFleb x y = true -> kx <= ky).
Proof.
  intros p e bits s x y He Vx Vy Nx Ny.
  destruct (quantize_unit p e bits s He) as [code [Hc Hmono]].
  destruct (Hc x Vx Nx) as [Bx Qx]. destruct (Hc y Vy Ny) as [By Qy].
  exists (code x), (code y), (code_min s), (iinfo_max s bits).
  assert (Hb : 2 <= bits) by (unfold enough_bits in He; lia).
  pose proof (iinfo_min_le s bits Hb). pose proof (iinfo_max_pos s bits Hb).
  assert (F : forall z, iinfo_min s bits <= z <= iinfo_max s bits -> fits s bits z).
  { intros z Hz. unfold fits, iinfo_min, iinfo_max in *. destruct s; lia. }
  split.
  - intros junk. eexists. split.
    + unfold quantize_float01. replace (sc_zero (ieee p e) (sc_sub (ieee p e) py1 py0)) with false by reflexivity.
      cbn [map]. rewrite Qx, Qy. reflexivity.
    + auto.
  - do 2 (split; [assumption|]). split; [lia|]. do 2 (split; [apply F; lia|]). intros L. apply Hmono; auto.
Qed.
Print Assumptions C76_cast_defined_partial.

(* 0.5f and +inf as uint8 *)
Example C76_case : enough_bits 24 128 8 /\ valid_binary 24 128 (S754_finite false 8388608 (-24)) = true /\
  rmap fst (quantize_float01 float32 (fun _ => 0) [S754_finite false 8388608 (-24); S754_infinity false]
              py0 py1 false 8) = Ok [128; 255].
Proof. split; [left; auto|]. split; vm_compute; reflexivity. Qed.
