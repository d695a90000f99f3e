(* The automatic size of a warped image in IEEE double precision. *)
From Verif Require Import Py QuantModel.
From Coq Require Import ZArith Floats.SpecFloat.
Local Open Scope Z_scope.

(* helpers.py:57-93: the first two rows of transform.matrix, an array of float64 *)
Record fmatrix := FM { f11 : spec_float; f12 : spec_float; f13 : spec_float;
                       f21 : spec_float; f22 : spec_float; f23 : spec_float }.

(* helpers.py:81-83 the corners (0, 0), (w, 0), (0, h), (w, h); the integers
   become float64 in the product (sizes below 2^53 are converted exactly) *)
Definition f_corners (d : Z * Z) : list (spec_float * spec_float) :=
  let i := sf_of_Z 53 1024 in
  [(i 0, i 0); (i (fst d), i 0); (i 0, i (snd d)); (i (fst d), i (snd d))].

(* helpers.py:85 one entry of transform.matrix[0:2] @ sub_bounds.T. Simplified:
   products are summed from left to right without fused multiply-add; for
   matrices with one non-zero entry in each row every order gives the same sum *)
Definition f_row (a b c : spec_float) (xy : spec_float * spec_float) : spec_float :=
  SFadd 53 1024 (SFadd 53 1024 (SFmul 53 1024 a (fst xy)) (SFmul 53 1024 b (snd xy)))
        (SFmul 53 1024 c (sf_of_Z 53 1024 1)).

(* helpers.py:86 bounds.max(axis=0): NaN wins *)
Definition f_max (x y : spec_float) : spec_float :=
  if sf_nan x then x else if sf_nan y then y else if SFleb x y then y else x.
(* helpers.py:86 bounds.max(axis=0) *)
Definition f_maximum (l : list spec_float) : spec_float :=
  match l with [] => S754_nan | x :: r => fold_left f_max r x end.

(* helpers.py:86-88 int(np.ceil(x)): OverflowError for infinities, ValueError for NaN *)
Definition f_ceil_int (x : spec_float) : result Z :=
  match x with
  | S754_zero _ => Ok 0
  | S754_finite s m e =>
      let n := if s then Zneg m else Zpos m in
      Ok (if 0 <=? e then n * 2 ^ e else - ((- n) / 2 ^ (- e)))
  | S754_infinity _ => Err OtherError
  | S754_nan => Err ValueError
  end.

(* helpers.py:57-93 _auto_dsize; None is a transform without matrix *)
Definition auto_dsize_f (t : option fmatrix) (d : Z * Z) : result (Z * Z) :=
  match t with
  | None => Ok d
  | Some m =>
      w <- f_ceil_int (f_maximum (map (f_row (f11 m) (f12 m) (f13 m)) (f_corners d))) ;;
      h <- f_ceil_int (f_maximum (map (f_row (f21 m) (f22 m) (f23 m)) (f_corners d))) ;;
      Ok (w, h)
  end.
