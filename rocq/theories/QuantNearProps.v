(* C75 in IEEE arithmetic. *)
From Verif Require Import Py QuantModel QuantSpec QuantFloat QuantRange QuantNear QuantProps.
From Coq Require Import Reals Lra ZArith Floats.SpecFloat.
From Flocq Require Import Core.Core IEEE754.BinarySingleNaN.
Open Scope Z_scope.

(* With the default range [0, 1], and float32 data with 8 or 16 bit codes or float64
   data with up to 32 bits: a code that went through dequantize and quantize again is
   the same code or the one below it, whatever undefined casts do; the lowest code, the
   highest code and the nodata code stay as they are. *)
Theorem C75_near_partial : forall p e bits signed junk codes, enough_bits p e bits ->
  Forall (fun k => code_min signed <= k <= iinfo_max signed bits \/ k = code_nan signed bits) codes ->
  exists codes', requantized (ieee p e) junk py0 py1 signed bits codes = Ok codes' /\
    Forall2 (fun k k' => (k' = k \/ k' = k - 1) /\
      (k = code_min signed \/ k = iinfo_max signed bits \/ k = code_nan signed bits -> k' = k)) codes codes'.
Proof.
  intros p e bits s junk codes He Hc.
  assert (G : (iinfo_max s bits - code_min s =? 0) = false /\ sc_zero (ieee p e) (sc_sub (ieee p e) py1 py0) = false /\
     (representable (VInt (code_nan s bits)) (DInt s bits) = true) /\
     (code_nan s bits < code_min s) /\
     to_arr (ieee p e) py0 = S754_zero false /\ to_arr (ieee p e) (sc_int (ieee p e) (code_min s)) = sf_of_Z p e (code_min s) /\
     code_min s <= iinfo_max s bits /\
     unit_code p e bits s (unit_sample p e bits s (iinfo_max s bits)) = iinfo_max s bits).
  { assert (T : code_min s <= iinfo_max s bits /\ quantize1 (ieee p e) (fun _ => 0) py0 py1 s bits (unit_sample p e bits s (iinfo_max s bits)) = iinfo_max s bits).
    { destruct He as [[-> [-> [-> | ->]]] | [-> [-> [-> | [-> | ->]]]]]; destruct s; vm_compute; (split; [discriminate|reflexivity]). }
    assert (T2 : unit_code p e bits s (unit_sample p e bits s (iinfo_max s bits)) = iinfo_max s bits).
    { destruct (near_code p e bits s (iinfo_max s bits) He) as (V & Nn & _); [lia|].
      destruct (unit_codes p e bits s _ He V Nn) as [_ Q]. rewrite <- (Q (fun _ => 0)). apply T. }
    assert (T1 := proj1 T). clear T.
    repeat (match goal with |- _ /\ _ => split end); try assumption;
    destruct He as [[-> [-> [-> | ->]]] | [-> [-> [-> | [-> | ->]]]]]; destruct s; vm_compute; reflexivity. }
  destruct G as (G1 & G2 & G3 & G4 & G5 & G6 & G7 & G8).
  unfold requantized, quantize_float01. rewrite G2. cbn [bind]. unfold dequantize.
  cbn [quant_max quant_min orig_min orig_max nodata bind]. rewrite G1. cbn [map bind].
  eexists. split; [reflexivity|]. rewrite map_map.
  induction Hc as [|c codes Hk _ IH]; cbn [map]; constructor; [|exact IH].
  destruct Hk as [Hk|Hk].
  - destruct (near_code p e bits s c He Hk) as (V & Nn & N1 & N2).
    destruct (unit_codes p e bits s _ He V Nn) as [_ Q].
    unfold dequantize1. rewrite G3. cbn [int_equals].
    replace (c =? code_nan s bits) with false by (symmetry; apply Z.eqb_neq; lia). cbn [andb].
    rewrite G5, G6.
    change (sc_sub (ieee p e) py1 py0) with py1.
    change (a_add _ _ _) with (unit_sample p e bits s c). rewrite Q. split; [exact N1|].
    intros [E | [E | E]]; [now apply N2| |lia]. rewrite E. exact G8.
  - subst c. unfold dequantize1. rewrite G3. cbn [int_equals]. rewrite Z.eqb_refl. cbn [andb].
    assert (E : quantize1 (ieee p e) junk py0 py1 s bits (nan (ieee p e)) = code_nan s bits) by reflexivity.
    rewrite E. auto.
Qed.
Print Assumptions C75_near_partial.

Example C75_near_case : enough_bits 24 128 8 /\
  Forall (fun k => code_min false <= k <= iinfo_max false 8 \/ k = code_nan false 8) [0; 1; 10; 11; 255] /\
  requantized (ieee 24 128) (fun _ => 77) py0 py1 false 8 [0; 1; 10; 11; 255] = Ok [0; 1; 9; 11; 255].
Proof.
  split; [left; auto|]. split; [|vm_compute; reflexivity].
  apply Forall_cons; [right; reflexivity|]. repeat (apply Forall_cons; [left; vm_compute; split; discriminate|]). apply Forall_nil.
Qed.

(* Nor do the codes settle after the first time: in float32, 209 becomes 208 and then 207. *)
Theorem C75_settled_refuted : ~ forall junk codes codes',
  Forall (fun k => code_min false <= k <= iinfo_max false 8) codes ->
  requantized float32 junk py0 py1 false 8 codes = Ok codes' ->
  requantized float32 junk py0 py1 false 8 codes' = Ok codes'.
Proof.
  intros H. specialize (H (fun _ => 0) [209] [208]).
  assert (X : requantized float32 (fun _ => 0) py0 py1 false 8 [208] = Ok [207]) by (vm_compute; reflexivity).
  rewrite H in X; [discriminate X | | vm_compute; reflexivity].
  constructor; [vm_compute; split; discriminate | constructor].
Qed.
Print Assumptions C75_settled_refuted.
