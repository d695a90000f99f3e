(* lazy_loaders.py:1105-1137 _validate_nonzero_data: does a file hold anything?  Samples
   are integers and sums are exact.  Definitions only. *)
From Verif Require Export Py LazyModel.
Local Open Scope Z_scope.

(* numpy and numpy.ma sum() of all samples: a number, nan, or masked when every sample
   is; see lazy_loaders.py:1128, 1132 *)
Inductive total := TNum (z : Z) | TNan | TMasked.
(* lazy_loaders.py:1128: masked samples do not count, nan is contagious *)
Definition add_sample (t : total) (s : sample Z) : total :=
  match t, s with
  | TNan, _ | _, SNan => TNan
  | t, SMask _ => t
  | TNum a, SVal v => TNum (a + v)
  | TMasked, SVal v => TNum v
  end.
(* lazy_loaders.py:1128; the sum of no samples is 0 *)
Definition sum_of (r : rarr Z) : total :=
  match List.concat (List.concat (r_data r)) with
  | [] => TNum 0
  | l => fold_left add_sample l TMasked
  end.
(* lazy_loaders.py:1129, 1133: total > 0; comparisons with nan and masked are not true *)
Definition positive (t : total) : bool := match t with TNum z => 0 <? z | _ => false end.
(* lazy_loaders.py:1131 total == 0 *)
Definition is_zero (t : total) : bool := match t with TNum z => z =? 0 | _ => false end.

(* lazy_loaders.py:1125-1130: the loop over the sizes; [t] is the total so far *)
Fixpoint grow_window (read : list idx -> result (rarr Z)) (cy cx : Z) (sizes : list Z) (t : total) : result total :=
  match sizes with
  | [] => Ok t
  | d :: ds =>
      r <- read [ISlice (Some (cy - d)) (Some (cy + d)) None; ISlice (Some (cx - d)) (Some (cx + d)) None] ;;
      let t := sum_of r in
      if positive t then Ok t else grow_window read cy cx ds t
  end.

(* lazy_loaders.py:1105-1137; the result as a truth value, any exception gives False *)
Definition has_data (veq : Z -> Z -> bool) (promote : Z -> Z) (fast : bool) (upstream : result (rarr Z)) (s : lazy Z) : bool :=
  let read := getitem veq promote fast upstream s in
  match (sh <- shape s ;;
         let '(h, w, _) := sh in
         t <- grow_window read (h / 2) (w / 2) [8; 512; 2048; 5000] TMasked ;;
         if is_zero t then rmap sum_of (read [full]) else Ok t) with
  | Ok t => positive t
  | Err _ => false
  end.
