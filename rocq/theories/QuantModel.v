(* Quantization: helpers.quantize_float01, helpers.dequantize and
   helpers._scalar_is_representable_in_dtype.

   The arithmetic is a parameter.  [exact] computes with rationals; [ieee p e]
   computes with IEEE binary floats (Coq.Floats.SpecFloat: prec p, emax e).
   numpy works element by element, so an array is the list of its elements. *)
From Verif Require Import Py.
From Coq Require Import QArith Qround Floats.SpecFloat.
Open Scope Z_scope.

(** ** Numbers *)

(* Python/numpy floating point operations used by the two functions.
   [arr] is the element type of the array, [sc] the type of Python floats;
   [to_arr] is the conversion of a Python scalar combined with an array (the
   array type wins, both in numpy 1 and numpy 2).; see numpy arithmetic used by helpers.py:412-576 *)
Record arith := Arith {
  arr : Type; sc : Type;
  to_arr : sc -> arr;
  int_arr : Z -> arr;              (* astype of an integer sample *)
  sc_sub : sc -> sc -> sc; sc_div : sc -> sc -> sc; sc_int : Z -> sc;
  sc_zero : sc -> bool;
  a_add : arr -> arr -> arr; a_sub : arr -> arr -> arr; a_mul : arr -> arr -> arr;
  a_le : arr -> arr -> bool; a_nan : arr -> bool; nan : arr;
  a_trunc : arr -> option Z;       (* C cast; None for NaN and infinities *)
  a_same : arr -> arr -> bool }.   (* == *)

(* floats with exact arithmetic; see arithmetic used by helpers.py:412-576 *)
Inductive fval := Fin (q : Q) | PInf | NInf | Nan.

(* arithmetic used by helpers.py:412-576 *)
Definition f_neg a := match a with Fin q => Fin (- q) | PInf => NInf | NInf => PInf | Nan => Nan end.
(* arithmetic used by helpers.py:412-576 *)
Definition f_add a b :=
  match a, b with
  | Nan, _ | _, Nan => Nan
  | Fin p, Fin q => Fin (p + q)
  | PInf, NInf | NInf, PInf => Nan
  | PInf, _ | _, PInf => PInf
  | NInf, _ | _, NInf => NInf
  end.
(* arithmetic used by helpers.py:412-576 *)
Definition f_sign a := match a with Fin q => Qcompare q 0 | PInf => Gt | NInf => Lt | Nan => Eq end.
(* arithmetic used by helpers.py:412-576 *)
Definition f_mul a b :=
  match a, b with
  | Nan, _ | _, Nan => Nan
  | Fin p, Fin q => Fin (p * q)
  | _, _ => match f_sign a, f_sign b with
            | Eq, _ | _, Eq => Nan
            | Lt, Lt | Gt, Gt => PInf
            | _, _ => NInf
            end
  end.
(* arithmetic used by helpers.py:412-576 *)
Definition f_le a b :=
  match a, b with
  | Nan, _ | _, Nan => false
  | NInf, _ => true
  | _, PInf => true
  | Fin p, Fin q => Qle_bool p q
  | _, _ => false
  end.
(* arithmetic used by helpers.py:412-576 *)
Definition Qtrunc (q : Q) : Z := if Qle_bool 0 q then Qfloor q else Qceiling q.
(* arithmetic used by helpers.py:412-576 *)
Definition f_trunc a := match a with Fin q => Some (Qtrunc q) | _ => None end.
(* arithmetic used by helpers.py:412-576 *)
Definition is_nan a := match a with Nan => true | _ => false end.

(* arithmetic used by helpers.py:412-576 *)
Definition exact : arith :=
  Arith fval Q Fin (fun z => Fin (inject_Z z))
        Qminus Qdiv inject_Z (fun q => Qeq_bool q 0)
        f_add (fun a b => f_add a (f_neg b)) f_mul f_le is_nan Nan f_trunc
        (fun a b => f_le a b && f_le b a).

(* IEEE binary floats; see arithmetic used by helpers.py:412-576 *)
Definition sf_of_Z (p e z : Z) : spec_float := binary_normalize p e z 0 false.
(* arithmetic used by helpers.py:412-576 *)
Definition sf_round (p e : Z) (x : spec_float) : spec_float :=
  match x with
  | S754_finite s m x => binary_normalize p e (if s then Zneg m else Zpos m) x s
  | _ => x
  end.
(* arithmetic used by helpers.py:412-576 *)
Definition sf_trunc (x : spec_float) : option Z :=
  match x with
  | S754_zero _ => Some 0
  | S754_finite s m x =>
      let n := if 0 <=? x then Zpos m * 2 ^ x else Zpos m / 2 ^ (- x) in
      Some (if s then - n else n)
  | _ => None
  end.
(* arithmetic used by helpers.py:412-576 *)
Definition sf_nan (x : spec_float) : bool := match x with S754_nan => true | _ => false end.
(* arithmetic used by helpers.py:412-576 *)
Definition sf_zero (x : spec_float) : bool := match x with S754_zero _ => true | _ => false end.

(* arrays of binary(p,e) floats, Python scalars in binary64
   See arithmetic used by helpers.py:412-576 *)
Definition ieee (p e : Z) : arith :=
  Arith spec_float spec_float (sf_round p e) (sf_of_Z p e)
        (SFsub 53 1024) (SFdiv 53 1024) (sf_of_Z 53 1024) sf_zero
        (SFadd p e) (SFsub p e) (SFmul p e) SFleb sf_nan S754_nan sf_trunc SFeqb.
(* arithmetic used by helpers.py:412-576 *)
Definition float32 := ieee 24 128.
(* arithmetic used by helpers.py:412-576 *)
Definition float64 := ieee 53 1024.

(** ** dtypes *)

(* numpy dtypes by kind; a float or complex kind carries np.finfo(dtype).max
   See used by helpers.py:16-54 _scalar_is_representable_in_dtype *)
Inductive dtype := DBool | DInt (signed : bool) (bits : Z) | DFloat (max : Q) | DComplex (max : Q) | DOther.

(* np.iinfo(dtype).min / .max; see used by helpers.py:16-54 _scalar_is_representable_in_dtype *)
Definition iinfo_min (signed : bool) (bits : Z) : Z := if signed then - 2 ^ (bits - 1) else 0.
(* used by helpers.py:16-54 _scalar_is_representable_in_dtype *)
Definition iinfo_max (signed : bool) (bits : Z) : Z := if signed then 2 ^ (bits - 1) - 1 else 2 ^ bits - 1.

(* Python scalars that can be a nodata value
   See used by helpers.py:16-54 _scalar_is_representable_in_dtype *)
Inductive scalar :=
| VBool (b : bool) | VInt (z : Z) | VFloat (f : fval)
| VRational (q : Q)                (* fractions.Fraction, decimal.Decimal *)
| VComplex (re im : fval) | VText (s : string) | VNone.

(* int(v); see used by helpers.py:16-54 _scalar_is_representable_in_dtype *)
Definition py_int_of (v : scalar) : result Z :=
  match v with
  | VBool b => Ok (if b then 1 else 0)
  | VInt z => Ok z
  | VFloat (Fin q) => Ok (Qtrunc q)
  | VFloat Nan => Err ValueError
  | VFloat _ => Err OtherError       (* OverflowError *)
  | VRational q => Ok (Qtrunc q)
  | VComplex _ _ => Err TypeError
  | VText s => py_int s
  | VNone => Err TypeError
  end.

(* float.is_integer; see used by helpers.py:16-54 _scalar_is_representable_in_dtype *)
Definition is_integer (f : fval) : bool :=
  match f with Fin q => Qeq_bool q (inject_Z (Qfloor q)) | _ => false end.

(* float(v); texts are left out ([None])
   See used by helpers.py:16-54 _scalar_is_representable_in_dtype *)
Definition py_float_of (v : scalar) : option fval :=
  match v with
  | VBool b => Some (Fin (if b then 1 else 0)%Q)
  | VInt z => Some (Fin (inject_Z z))
  | VFloat f => Some f
  | VRational q => Some (Fin q)
  | _ => None
  end.

(* used by helpers.py:16-54 _scalar_is_representable_in_dtype *)
Definition within (m : Q) (f : fval) : bool :=
  match f with Fin q => Qle_bool (- m) q && Qle_bool q m | _ => true end.
(* used by helpers.py:16-54 _scalar_is_representable_in_dtype *)
Definition finite (f : fval) : bool := match f with Fin _ => true | _ => false end.

(* helpers.py:16-54 _scalar_is_representable_in_dtype.  Only the float type of
   Python takes part in the integrality test of line 23.  Simplified: texts are
   reported unrepresentable in float and complex dtypes, and the rounding of a
   huge integer to a float is ignored. *)
Definition representable (v : scalar) (d : dtype) : bool :=
  match d with
  | DBool =>                                                   (* helpers.py:19-20 *)
      match v with
      | VBool _ => true
      | VInt z => (z =? 0) || (z =? 1)
      | VFloat (Fin q) | VRational q => Qeq_bool q 0 || Qeq_bool q 1
      | VComplex (Fin re) (Fin im) => (Qeq_bool re 0 || Qeq_bool re 1) && Qeq_bool im 0
      | _ => false
      end
  | DInt s b =>                                                (* helpers.py:21-32 *)
      if match v with VFloat f => negb (is_integer f) | _ => false end then false
      else match py_int_of v with
           | Ok i => (iinfo_min s b <=? i) && (i <=? iinfo_max s b)
           | Err _ => false
           end
  | DFloat m =>                                                (* helpers.py:33-41 *)
      match py_float_of v with Some f => within m f | None => false end
  | DComplex m =>                                              (* helpers.py:42-53 *)
      match v with
      | VComplex re im => negb (finite re) || negb (finite im) || (within m re && within m im)
      | _ => match py_float_of v with Some f => within m f | None => false end
      end
  | DOther => true                                             (* helpers.py:54 *)
  end.

(** ** Quantize and dequantize *)

(* the quantization dict; [None] is a missing key
   See helpers.py:412-497, 500-576: the quantization dict *)
Record quantization (S : Type) := Quant {
  orig_min : option S; orig_max : option S;
  quant_min : option Z; quant_max : option Z; nodata : option scalar }.
Arguments Quant {S}. Arguments orig_min {S}. Arguments orig_max {S}.
Arguments quant_min {S}. Arguments quant_max {S}. Arguments nodata {S}.

(* helpers.py:544-552 *)
Definition code_min (signed : bool) : Z := if signed then 0 else 1.
(* helpers.py:543-553 *)
Definition code_nan (signed : bool) (bits : Z) : Z :=
  if signed then Z.max (-9999) (iinfo_min signed bits) else 0.

(* ndarray.clip on one element; NaN stays NaN; see arithmetic used by helpers.py:412-576 *)
Definition clip (A : arith) (lo hi x : arr A) : arr A :=
  let y := if a_le A x lo then lo else x in
  if a_le A hi y then hi else y.

(* helpers.py:568-570, one element *)
Definition scaled (A : arith) (lo hi : sc A) (signed : bool) (bits : Z) (x : arr A) : arr A :=
  let new_extent := iinfo_max signed bits - code_min signed in                 (* helpers.py:563 *)
  let quant_factor := sc_div A (sc_int A new_extent) (sc_sub A hi lo) in       (* helpers.py:564 *)
  a_add A (a_mul A (a_sub A (clip A (to_arr A lo) (to_arr A hi) x) (to_arr A lo))
                   (to_arr A quant_factor))
          (to_arr A (sc_int A (code_min signed))).

(* ndarray.astype(integer dtype), one element: truncation; outside the range of
   the dtype the C cast is undefined, and [junk] stands for what it gives
   See ndarray.astype, helpers.py:571 *)
Definition astype (A : arith) (junk : arr A -> Z) (signed : bool) (bits : Z) (v : arr A) : Z :=
  match a_trunc A v with
  | Some z => if (iinfo_min signed bits <=? z) && (z <=? iinfo_max signed bits) then z else junk v
  | None => junk v
  end.

(* helpers.py:567-572, one element *)
Definition quantize1 (A : arith) (junk : arr A -> Z) (lo hi : sc A) (signed : bool) (bits : Z)
    (x : arr A) : Z :=
  if a_nan A x then code_nan signed bits
  else astype A junk signed bits (scaled A lo hi signed bits x).

(* helpers.py:500-576 quantize_float01.  Dividing by a zero extent raises
   ZeroDivisionError.  Only integer dtypes: np.iinfo raises on others. *)
Definition quantize_float01 (A : arith) (junk : arr A -> Z) (imdata : list (arr A))
    (old_min old_max : sc A) (signed : bool) (bits : Z) : result (list Z * quantization (sc A)) :=
  if sc_zero A (sc_sub A old_max old_min) then Err OtherError
  else Ok (map (quantize1 A junk old_min old_max signed bits) imdata,
           Quant (Some old_min) (Some old_max) (Some (code_min signed))
                 (Some (iinfo_max signed bits)) (Some (VInt (code_nan signed bits)))).

(* sample == nodata where the samples are integers; see helpers.py:487 *)
Definition int_equals (z : Z) (v : scalar) : bool :=
  match v with
  | VBool b => z =? (if b then 1 else 0)
  | VInt n => z =? n
  | VFloat (Fin q) | VRational q => Qeq_bool (inject_Z z) q
  | VComplex (Fin re) (Fin im) => Qeq_bool (inject_Z z) re && Qeq_bool im 0
  | _ => false
  end.

(* helpers.py:412-497 dequantize on integer samples of dtype [d]; orig_dtype is
   the float dtype of the arithmetic (line 457 defaults to float32).
   Left out: an integer orig_dtype. *)
Definition dequantize1 (A : arith) (omin : sc A) (scale : sc A) (qmin : Z) (mask : Z -> bool)
    (z : Z) : arr A :=
  if mask z then nan A                                                          (* helpers.py:488-489 *)
  else a_add A (a_mul A (a_sub A (int_arr A z) (to_arr A (sc_int A qmin)))
                        (to_arr A scale))
               (to_arr A omin).                                                 (* helpers.py:480-481 *)

Definition dequantize (A : arith) (d : dtype) (data : list Z) (q : quantization (sc A)) : result (list (arr A)) :=
  let dflt {X} (o : option X) (x : X) := match o with Some v => v | None => x end in
  let omin := dflt (orig_min q) (sc_int A 0) in                                 (* helpers.py:458-460 *)
  let omax := dflt (orig_max q) (sc_int A 1) in
  let qmin := dflt (quant_min q) 0 in
  match quant_max q with
  | None => Err KeyError                                                        (* helpers.py:461 *)
  | Some qmax =>
      let scale := if qmax - qmin =? 0 then sc_int A 0                          (* helpers.py:465-468 *)
                   else sc_div A (sc_sub A omax omin) (sc_int A (qmax - qmin)) in
      let mask z := match nodata q with                                         (* helpers.py:482-488 *)
                    | None => false
                    | Some v => representable v d && int_equals z v
                    end in
      Ok (map (dequantize1 A omin scale qmin mask) data)
  end.
