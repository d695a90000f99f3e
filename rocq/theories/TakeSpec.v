(* Vocabulary for statements about channel selection. *)
From Verif Require Import Py GeomModel GraphModel GraphSpec FinalModel FinalSpec.
Local Open Scope Z_scope.

(* A way to finalize trees: leafs, concatenations, crops and dequantizations as
   the code does; for warps and overviews (OpenCV, GDAL) only the shape of the
   result is fixed.  [finalize W] is one (finalize_finalizer in TakeProofs.v). *)
Record finalizer {V} (W : world V) (F : node -> result (array V)) : Prop := {
  f_leaf : forall l, F (Leaf l) = finalize_leaf W l;
  f_concat : forall ps d, F (Concat ps d) = (l <- mapR F ps ;; stack_bands l);
  f_crop : forall s ys xs ci d nm nc,
    F (Crop s ys xs ci d nm nc) = (a <- F s ;; rmap atleast3 (index_array a ys xs ci));
  f_dequant : forall s q d, F (Dequant s q d) = rmap (fun a => dq_array W q (atleast3 a)) (F s);
  f_warp : forall s M d al a, F (Warp s M d al) = Ok a ->
    exists b, F s = Ok b /\ a_w a = fst d /\ a_h a = snd d /\ a_c a = a_c (atleast3 b);
  f_overview : forall s k d a, F (Overview s k d) = Ok a ->
    a_w a = fst d /\ a_h a = snd d /\ a_c a = num_channels s }.

(* rows and columns of an array *)
Definition on_array {V} (a : array V) (r c : Z) : Prop := 0 <= r < a_h a /\ 0 <= c < a_w a.

(* same height and width *)
Definition same_canvas {V} (a b : array V) : Prop := a_h a = a_h b /\ a_w a = a_w b.

(* band [i] of [a'] is band [b] of [a] *)
Definition band_is {V} (a' : array V) (i : Z) (a : array V) (b : Z) : Prop :=
  forall r c, on_array a r c -> a_pix a' r c i = a_pix a r c b.

(* band [i] of [a] holds the value [v] everywhere *)
Definition band_const {V} (a : array V) (i : Z) (v : V) : Prop :=
  forall r c, on_array a r c -> a_pix a r c i = v.

(* [a'] holds the rows [rows], columns [cols] and bands [bands] of [a], in that
   order: numpy's a[np.ix_(rows, cols, bands)] *)
Definition selection {V} (a : array V) (rows cols bands : list Z) (a' : array V) : Prop :=
  a_h a' = Z.of_nat (List.length rows) /\ a_w a' = Z.of_nat (List.length cols) /\
  a_c a' = Some (Z.of_nat (List.length bands)) /\
  forall i j k r c b, nth_error rows i = Some r -> nth_error cols j = Some c -> nth_error bands k = Some b ->
    a_pix a' (Z.of_nat i) (Z.of_nat j) (Z.of_nat k) = a_pix a r c b.

(* l[s] for a Python slice *)
Definition sliced {A} (s : pyslice) (l : list A) : list A := py_slice l (fst s) (snd s).

(* 0, 1, ..., n-1 *)
Definition upto (n : Z) : list Z := zseq (Z.to_nat n).

(* [l'] are the items of [l] at the indexes [ci] (all items for None) *)
Definition items {A} (ci : option (list Z)) (l l' : list A) : Prop :=
  match ci with
  | None => l' = l
  | Some idxs => Forall2 (fun i x => nth_error l (Z.to_nat i) = Some x) idxs l'
  end.

(* a band selection by indexes that exist *)
Definition valid_bands (t : node) (ci : option (list Z)) : Prop :=
  forall n l, num_channels t = Some n -> ci = Some l -> l <> [] /\ Forall (fun i => 0 <= i < n) l.

(* a finalizer that knows shapes only *)
Fixpoint blank (t : node) : result (array unit) :=
  let W := World (fun _ _ _ _ => tt) (fun _ => false) tt tt (fun _ _ => tt) in
  match t with
  | Leaf l => finalize_leaf W l
  | Concat ps _ => l <- mapR (fun x => x) (map blank ps) ;; stack_bands l
  | Crop s ys xs ci _ _ _ => a <- blank s ;; rmap atleast3 (index_array a ys xs ci)
  | Dequant s q _ => rmap (fun a => dq_array W q (atleast3 a)) (blank s)
  | Warp s _ d _ => a <- blank s ;; Ok (Arr (snd d) (fst d) (a_c (atleast3 a)) (fun _ _ _ => tt))
  | Overview s _ d => Ok (Arr (snd d) (fst d) (num_channels s) (fun _ _ _ => tt))
  end.
