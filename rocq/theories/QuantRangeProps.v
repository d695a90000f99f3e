(* C76 for ranges other than [0, 1]. *)
From Verif Require Import Py QuantModel QuantSpec QuantFloat QuantRange.
From Coq Require Import Reals Lra ZArith Floats.SpecFloat.
From Flocq Require Import Core.Core IEEE754.BinarySingleNaN.
Open Scope Z_scope.

(* Whatever the range, if its ends are numbers of the element type, at most 2^100 in
   size and at least 2^-100 apart, the cast is defined for every float32 datum and 8 or
   16 bit codes (every float64 datum, up to 32 bits), the codes avoid the nodata code,
   and they are monotone in the data. *)
Theorem C76_any_range_partial : forall p e bits signed lo hi x y, enough_bits p e bits ->
  valid_binary 53 1024 lo = true -> valid_binary 53 1024 hi = true -> is_finite_SF lo = true -> is_finite_SF hi = true ->
  generic_format radix2 (SpecFloat.fexp p e) (SF2R radix2 lo) -> generic_format radix2 (SpecFloat.fexp p e) (SF2R radix2 hi) ->
  (Rabs (SF2R radix2 lo) <= bpow radix2 100)%R -> (Rabs (SF2R radix2 hi) <= bpow radix2 100)%R ->
  (bpow radix2 (-100) <= SF2R radix2 hi - SF2R radix2 lo)%R ->
  valid_binary p e x = true -> valid_binary p e y = true -> sf_nan x = false -> sf_nan y = false ->
  exists kx ky qmin qmax,
    (forall junk, exists q,
       quantize_float01 (ieee p e) junk [x; y] lo hi signed bits = Ok ([kx; ky], q) /\
       quant_min q = Some qmin /\ quant_max q = Some qmax /\
       nodata q = Some (VInt (code_nan signed bits))) /\
    qmin <= kx <= qmax /\ qmin <= ky <= qmax /\
    ~ (qmin <= code_nan signed bits <= qmax) /\ fits signed bits qmin /\ fits signed bits qmax /\
    (SFleb x y = true -> kx <= ky).
Proof.
  intros p e bits s lo hi x y He H1 H2 H3 H4 H5 H6 H7 H8 H9 Vx Vy Nx Ny.
  destruct (quantize_range p e bits s lo hi He (Build_range_ok p e lo hi H1 H2 H3 H4 H5 H6 H7 H8 H9)) as [Hz [code [Hc Hmono]]].
  destruct (Hc x Vx Nx) as [Bx Qx]. destruct (Hc y Vy Ny) as [By Qy].
  assert (G : ~ (code_min s <= code_nan s bits <= iinfo_max s bits) /\ fits s bits (code_min s) /\ fits s bits (iinfo_max s bits)).
  { destruct He as [[-> [-> [-> | ->]]] | [-> [-> [-> | [-> | ->]]]]]; destruct s; unfold QuantSpec.fits; vm_compute;
      (split; [intros [U V]; (apply U; reflexivity) || (apply V; reflexivity)|]); repeat split; discriminate. }
  exists (code x), (code y), (code_min s), (iinfo_max s bits). split.
  - intros junk. eexists. split.
    + unfold quantize_float01. rewrite Hz. cbn [map]. rewrite Qx, Qy. reflexivity.
    + auto.
  - do 2 (split; [assumption|]). destruct G as (G1 & G2 & G3). do 3 (split; [assumption|]). intros L. now apply Hmono.
Qed.
Print Assumptions C76_any_range_partial.

Definition whole64 (n : Z) : spec_float := sf_of_Z 53 1024 n.

(* Both conditions on the range are needed, even for 8 bit codes: float32 moves the ends
   2^26+3 and 2^26+5 to 2^26 and 2^26+8, four times as far apart ... *)
Theorem C76_unrepresentable_refuted : ~ forall lo hi signed x junk junk',
  SFltb lo hi = true -> SFleb (to_arr float32 lo) x = true -> SFleb x (to_arr float32 hi) = true ->
  (bpow radix2 (-100) <= SF2R radix2 hi - SF2R radix2 lo)%R ->
  quantize_float01 float32 junk [x] lo hi signed 8 = quantize_float01 float32 junk' [x] lo hi signed 8.
Proof.
  intros H. specialize (H (whole64 (2 ^ 26 + 3)) (whole64 (2 ^ 26 + 5)) false (sf_of_Z 24 128 (2 ^ 26 + 8)) (fun _ => 0) (fun _ => 255)).
  assert (X : quantize_float01 float32 (fun _ => 0) [sf_of_Z 24 128 (2 ^ 26 + 8)] (whole64 (2 ^ 26 + 3)) (whole64 (2 ^ 26 + 5)) false 8 <>
              quantize_float01 float32 (fun _ => 255) [sf_of_Z 24 128 (2 ^ 26 + 8)] (whole64 (2 ^ 26 + 3)) (whole64 (2 ^ 26 + 5)) false 8)
    by (vm_compute; discriminate).
  apply X, H; try (vm_compute; reflexivity).
  destruct (int_float 53 1024 ltac:(red; lia) ltac:(red; lia) (2 ^ 26 + 3)) as (_ & E1 & _); [lia|].
  destruct (int_float 53 1024 ltac:(red; lia) ltac:(red; lia) (2 ^ 26 + 5)) as (_ & E2 & _); [lia|].
  unfold whole64. rewrite E1, E2, <- minus_IZR. change (2 ^ 26 + 5 - (2 ^ 26 + 3)) with 2.
  apply Rle_trans with (bpow radix2 1); [apply bpow_le; lia|]. cbn. lra.
Qed.
Print Assumptions C76_unrepresentable_refuted.

(* ... and the factor for the range from 0 to 2^-149 is infinite, so that the lower end
   itself has no code. *)
Theorem C76_tiny_refuted : ~ forall lo hi signed x junk junk',
  SFltb lo hi = true -> SFleb (to_arr float32 lo) x = true -> SFleb x (to_arr float32 hi) = true ->
  generic_format radix2 (SpecFloat.fexp 24 128) (SF2R radix2 lo) -> generic_format radix2 (SpecFloat.fexp 24 128) (SF2R radix2 hi) ->
  quantize_float01 float32 junk [x] lo hi signed 8 = quantize_float01 float32 junk' [x] lo hi signed 8.
Proof.
  intros H. set (tiny := SpecFloat.binary_normalize 53 1024 1 (-149) false).
  specialize (H (S754_zero false) tiny false (S754_zero false) (fun _ => 0) (fun _ => 255)).
  assert (X : quantize_float01 float32 (fun _ => 0) [S754_zero false] (S754_zero false) tiny false 8 <>
              quantize_float01 float32 (fun _ => 255) [S754_zero false] (S754_zero false) tiny false 8)
    by (vm_compute; discriminate).
  apply X, H; try (vm_compute; reflexivity).
  - apply generic_format_0.
  - assert (E : tiny = S754_finite false (2 ^ 52) (-201)) by (vm_compute; reflexivity). rewrite E. cbn [SF2R cond_Zopp].
    replace (F2R (Float radix2 (Z.pos (2 ^ 52)) (-201))) with (bpow radix2 (-149)).
    + apply bpow_fmt; [red; lia|]. vm_compute. discriminate.
    + unfold F2R. cbn [Fnum Fexp]. change (Z.pos (2 ^ 52)) with (Zpower radix2 52). rewrite IZR_Zpower by lia. rewrite <- bpow_plus. reflexivity.
Qed.
Print Assumptions C76_tiny_refuted.

(* the range from 5 to 30000, float32 data, uint16 codes *)
Example C76_any_range_case : let lo := whole64 5 in let hi := whole64 30000 in
  enough_bits 24 128 16 /\ valid_binary 53 1024 lo = true /\ valid_binary 53 1024 hi = true /\
  is_finite_SF lo = true /\ is_finite_SF hi = true /\
  generic_format radix2 (SpecFloat.fexp 24 128) (SF2R radix2 lo) /\ generic_format radix2 (SpecFloat.fexp 24 128) (SF2R radix2 hi) /\
  (Rabs (SF2R radix2 lo) <= bpow radix2 100)%R /\ (Rabs (SF2R radix2 hi) <= bpow radix2 100)%R /\
  (bpow radix2 (-100) <= SF2R radix2 hi - SF2R radix2 lo)%R /\
  rmap fst (quantize_float01 float32 (fun _ => 0) (map (sf_of_Z 24 128) [0; 5; 6; 15000; 30000; 40000]) lo hi false 16) =
    Ok [1; 1; 3; 32762; 65535; 65535].
Proof.
  cbv zeta. destruct (int_float 53 1024 ltac:(red; lia) ltac:(red; lia) 5) as (V1 & E1 & F1); [lia|].
  destruct (int_float 53 1024 ltac:(red; lia) ltac:(red; lia) 30000) as (V2 & E2 & F2); [lia|].
  assert (P : (30000 <= bpow radix2 100)%R).
  { apply Rle_trans with (bpow radix2 15); [cbn; lra|apply bpow_le; lia]. }
  unfold whole64. rewrite E1, E2, !Rabs_pos_eq by lra.
  split; [left; auto|]. do 4 (split; [assumption|]). split; [apply int_format; [red; lia|red; lia|lia]|]. split; [apply int_format; [red; lia|red; lia|lia]|].
  split; [lra|]. split; [lra|]. split; [apply Rle_trans with (bpow radix2 0); [apply bpow_le; lia|cbn; lra]|]. vm_compute. reflexivity.
Qed.
