(* Evaluating a warp: DelayedWarp._finalize and _warp_affine_matrix_mode
   (delayed_image/delayed_nodes.py).  The sampling functions of kwimage are
   external; they are modelled as exact samplers. *)
From Verif Require Import Py GeomModel GraphModel FinalModel.
From Coq Require Import Ascii.
Local Open Scope Z_scope.

(** ** Versions and the direction of matrixes *)

(* delayed_nodes.py:48-52 _version_tuple: the maximal runs of digits, as numbers;
   [cur] is the run being read *)
Fixpoint version_go (cur : option N) (s : string) : list Z :=
  match s with
  | EmptyString => match cur with Some n => [Z.of_N n] | None => [] end
  | String a r =>
      match digit_val a with
      | Some k => version_go (Some (10 * match cur with Some n => n | None => 0 end + k)%N) r
      | None => match cur with Some n => Z.of_N n :: version_go None r | None => version_go None r end
      end
  end.
(* delayed_nodes.py:48-52 _version_tuple *)
Definition version_tuple (s : string) : list Z := version_go None s.

(* a >= b for tuples of ints; see Python: >= of tuples, delayed_nodes.py:86 *)
Fixpoint tuple_geb (a b : list Z) : bool :=
  match a, b with
  | _, [] => true
  | [], _ :: _ => false
  | x :: a', y :: b' => if x =? y then tuple_geb a' b' else y <? x
  end.

(* delayed_nodes.py:67-105, argument of _warp_affine_matrix_mode *)
Inductive backend := Auto | Cv2 | OtherBackend.
(* delayed_nodes.py:67-105, result of _warp_affine_matrix_mode *)
Inductive direction := Forward | Inverse.

(* delayed_nodes.py:67-105 _warp_affine_matrix_mode; [cv2] is the version of
   OpenCV, None when it cannot be imported *)
Definition matrix_mode (kwimage : string) (cv2 : option string) (float64 : bool) (b : backend) (nearest : bool) : direction :=
  if tuple_geb (version_tuple kwimage) [0; 12; 0] then Forward
  else
    let cv2_version := option_map version_tuple cv2 in
    let effective := match b, cv2_version with Auto, Some _ => Cv2 | _, _ => b end in
    match effective, cv2_version with
    | Cv2, Some v =>
        if (nearest && float64 && match firstn 2 v with [x; y] => (x =? 4) && (y =? 13) | _ => false end)%bool
        then Inverse else Forward
    | _, _ => Forward
    end.

(** ** The sampling functions of kwimage *)

Section Pixels.
Context {V : Type} (W : world V) (finite : V -> bool) (eqb : V -> V -> bool).

(* kwimage.warp_affine(M, dsize, interpolation='nearest', origin_convention=
   'corner') of a library that takes forward matrixes: the output pixel takes the
   source pixel that contains the preimage of its centre, or the border value
   See kwimage.warp_affine *)
Definition sample_at (I : affine) (d : size) (a : array V) : array V :=
  Arr (snd d) (fst d) (a_c a)
    (fun r c k =>
       let x := Qfloor (ax I (inject_Z c + (1#2)) (inject_Z r + (1#2))) in
       let y := Qfloor (ay I (inject_Z c + (1#2)) (inject_Z r + (1#2))) in
       if ((0 <=? x) && (x <? a_w a) && (0 <=? y) && (y <? a_h a))%bool then a_pix a y x k else w_fill W).

(* [dir] says how the installed library reads a matrix *)
Definition warp_affine (dir : direction) (M : affine) (d : size) (a : array V) : result (array V) :=
  match dir with
  | Forward => I <- aff_inv M ;; Ok (sample_at I d a)
  | Inverse => Ok (sample_at M d a)
  end.

(* kwimage.imresize(dsize, interpolation='nearest') *)
Definition imresize (d : size) (a : array V) : array V :=
  Arr (snd d) (fst d) (a_c a)
    (fun r c k => a_pix a (resize_src (a_h a) (snd d) r) (resize_src (a_w a) (fst d) c) k).

(** ** Choosing between two matrixes *)

(* all entries of an array; see delayed_nodes.py:1992-1999 *)
Definition entries (a : array V) : list V :=
  flat_map (fun r => flat_map (fun c => map (a_pix a r c)
    (zseq (Z.to_nat (match a_c a with Some n => n | None => 1 end)))) (zseq (Z.to_nat (a_w a)))) (zseq (Z.to_nat (a_h a))).

(* np.unique(l).size; see delayed_nodes.py:1992-1999 *)
Fixpoint uniques (seen l : list V) : Z :=
  match l with
  | [] => 0
  | v :: r => if existsb (eqb v) seen then uniques seen r else 1 + uniques (v :: seen) r
  end.

(* delayed_nodes.py:1992-1999 _score; the mean is exact *)
Definition score (src_uniq : Z) (a : array V) : Q * Z * Z :=
  let l := entries a in
  let fin := filter finite l in
  let ratio := match l with
               | [] => 0%Q
               | _ => (inject_Z (Z.of_nat (List.length fin)) / inject_Z (Z.of_nat (List.length l)))%Q
               end in
  let u := uniques [] fin in
  (ratio, - Z.abs (u - src_uniq), u).

(* tuple comparison s1 >= s2; see Python: >= of tuples, delayed_nodes.py:2003-2010 *)
Definition score_geb (s1 s2 : Q * Z * Z) : bool :=
  let '(q1, g1, u1) := s1 in
  let '(q2, g2, u2) := s2 in
  if Qeq_bool q1 q2 then if g1 =? g2 then u2 <=? u1 else g2 <? g1 else negb (Qle_bool q1 q2).

(* delayed_nodes.py:1894-2047 for interpolation='nearest' and a transform that is
   not a positive axis aligned one: both directions of the matrix are tried.
   [mode] is the result of matrix_mode, [lib] how the library reads matrixes. *)
Definition nearest_general (mode lib : direction) (M : affine) (d : size) (a : array V) : result (array V) :=
  I <- aff_inv M ;;
  let '(m1, m2) := match mode with Forward => (M, I) | Inverse => (I, M) end in
  cand1 <- warp_affine lib m1 d a ;;
  cand2 <- warp_affine lib m2 d a ;;
  let src := uniques [] (filter finite (entries a)) in
  let s1 := score src cand1 in
  let s2 := score src cand2 in
  let final := if score_geb s1 s2 then cand1 else cand2 in
  let best := if Qle_bool (fst (fst s2)) (fst (fst s1)) then fst (fst s1) else fst (fst s2) in
  Ok (atleast3 (if negb (Qle_bool (1#20) best) then imresize d a else final)).

(* delayed_nodes.py:1770-2047 _finalize, interpolation='nearest', one number or
   'auto' as border value *)
Definition warp_nearest (mode lib : direction) (M : affine) (d : size) (a : array V) : result (array V) :=
  if axis_aligned M then nearest_array W M d a else nearest_general mode lib M d a.

(** ** Border values *)

(* the border_value of a warp: 'auto', a number, a sequence of numbers, or the name
   of a border mode; see delayed_nodes.py:1791-1818, values of border_value *)
Inductive border := BorderAuto | BorderNumber (v : V) | BorderNumbers (l : list V) | BorderMode.

(* delayed_nodes.py:1791-1818: the numbers handed to the samplers, None for a
   border mode.  [auto] is the value 'auto' stands for: nan for float pixels, the
   fill value of a masked array, otherwise 0 *)
Definition border_values (auto : V) (b : border) (num_chan : Z) : result (option (list V)) :=
  let numbers := fun l : list V => if (4 <? Z.of_nat (List.length l)) then Err ValueError else Ok (Some (firstn 4 l)) in
  match b with
  | BorderAuto => numbers (repeat auto (Z.to_nat (Z.min 4 num_chan)))
  | BorderNumber v => numbers (repeat v (Z.to_nat (Z.min 4 num_chan)))
  | BorderNumbers l => numbers l
  | BorderMode => Ok None
  end.

(* delayed_nodes.py:1862-1866 *)
Definition with_fill (v : V) : world V := World (w_pix W) (w_flat W) (w_nan W) v (w_dq W).

(* delayed_nodes.py:1845-1892: the path for translated axis aligned transforms; it
   fills all bands with border_value[0] *)
Definition warp_border (auto : V) (b : border) (M : affine) (d : size) (a : array V) : result (array V) :=
  bv <- border_values auto b (match a_c a with Some n => n | None => 1 end) ;;
  match bv with
  | None => Err OtherError
  | Some [] => Err IndexError
  | Some (v :: _) => nearest_array (with_fill v) M d a
  end.

End Pixels.
Arguments BorderAuto {V}. Arguments BorderMode {V}.
