(* Vocabulary for statements about delayed graphs: what a graph means at a
   (continuous) output coordinate, independently of how optimize() rewrites it. *)
From Verif Require Import Py GeomModel GraphModel.
Local Open Scope Q_scope.

(* Where an output value comes from: band [band] of the data [id] at source
   coordinate (x, y), passed through the dequantizations [dq] (outermost first),
   or a missing value passed through dequantizations. *)
Inductive sample := NaN (dq : list Z) | Samp (id band : Z) (x y : Q) (dq : list Z).

(* an output coordinate lies on a canvas *)
Definition inside (sz : size) (x y : Q) : Prop :=
  0 <= x <= inject_Z (fst sz) /\ 0 <= y <= inject_Z (snd sz).

(* band [c] of a selection is band [b] of the source *)
Definition selects (ci : option (list Z)) (c b : Z) : Prop :=
  match ci with
  | None => b = c
  | Some l => (0 <= c)%Z /\ nth_error l (Z.to_nat c) = Some b
  end.

Definition apply_dq (q : option Z) (s : sample) : sample :=
  match q, s with
  | Some i, Samp id b x y l => Samp id b x y (i :: l)
  | Some i, NaN l => NaN (i :: l)
  | None, _ => s
  end.

(* [V p c'] for the part [p] that owns band [c] of a concatenation *)
Definition owner (V : node -> Z -> Prop) : list node -> Z -> Prop :=
  fix go ps c :=
    match ps with
    | [] => False
    | p :: r => match num_channels p with
                | Some n => if (c <? n)%Z then V p c else go r (c - n)%Z
                | None => False
                end
    end.

(* [vis t x y c s]: the output coordinate (x, y) of band [c] of the graph [t]
   shows the sample [s]; the coordinate lies on the canvas of every node it
   passes.  A warp moves the point (x', y') of its child to M (x', y'), a crop
   shifts, an overview shrinks by a power of two. *)
Fixpoint vis (t : node) (x y : Q) (c : Z) (s : sample) {struct t} : Prop :=
  match t with
  | Leaf l =>
      inside (l_dsize l) x y /\
      (exists n, l_nc l = Some n /\ (0 <= c < n)%Z) /\
      match l_kind l with
      | Nans => s = NaN []
      | Data => exists x' y', x' == x /\ y' == y /\ s = Samp (l_id l) c x' y' []
      end
  | Concat ps d =>
      match d with Some d => inside d x y | None => False end /\
      owner (fun p c' => vis p x y c' s) ps c
  | Crop t' ys xs ci d _ _ =>
      inside d x y /\
      exists b, selects ci c b /\
                vis t' (x + inject_Z (fst xs)) (y + inject_Z (fst ys)) b s
  | Warp t' M d _ =>
      inside d x y /\
      exists x' y', x == ax M x' y' /\ y == ay M x' y' /\ vis t' x' y' c s
  | Dequant t' q d =>
      match d with Some d => inside d x y | None => True end /\
      exists s', vis t' x y c s' /\ s = apply_dq q s'
  | Overview t' k d =>
      inside d x y /\ vis t' (x * pow2 k) (y * pow2 k) c s
  end.

(** ** Well formed graphs *)

Definition leaf_ok (l : leaf) : Prop :=
  (exists n, l_nc l = Some n /\ (0 <= n)%Z /\
             match l_names l with Some nm => Z.of_nat (List.length nm) = n | None => True end) /\
  (l_kind l = Nans -> l_names l <> None).

Definition forall_parts (P : node -> Prop) : list node -> Prop :=
  fix go ps := match ps with [] => True | p :: r => P p /\ go r end.

(* What the constructors of the library guarantee, for band selections by valid
   non-negative indexes, concatenations of parts of one size and noop_eps = 0. *)
Fixpoint wf (t : node) : Prop :=
  match t with
  | Leaf l => leaf_ok l
  | Concat ps d =>
      forall_parts wf ps /\ forall_parts (fun p => dsize p = d) ps /\ (ps = [] -> d = None)
  | Crop s ys xs ci d nm nc =>
      wf s /\ (0 <= fst ys)%Z /\ (0 <= fst xs)%Z /\ d = (iv_len xs, iv_len ys) /\
      match ci with
      | None => nm = None /\ nc = None
      | Some l =>
          nc = Some (Z.of_nat (List.length l)) /\
          (forall n, num_channels s = Some n -> Forall (fun i => 0 <= i < n)%Z l) /\
          match names s with
          | Some n => exists n', select_names n l = Ok n' /\ nm = Some n'
          | None => nm = None
          end
      end
  | Warp s _ _ al => wf s /\ al_eps al == 0
  | Dequant s _ _ => wf s
  | Overview s _ _ => wf s
  end.

(* no DelayedNans leaf *)
Fixpoint nans_free (t : node) : Prop :=
  match t with
  | Leaf l => l_kind l = Data
  | Concat ps _ => forall_parts nans_free ps
  | Crop s _ _ _ _ _ _ | Warp s _ _ _ | Dequant s _ _ | Overview s _ _ => nans_free s
  end.

(* no overview node, and no leaf has stored overviews *)
Fixpoint ov_less (t : node) : Prop :=
  match t with
  | Leaf l => l_ov l = None \/ l_ov l = Some 0%Z
  | Concat ps _ => forall_parts ov_less ps
  | Crop s _ _ _ _ _ _ | Warp s _ _ _ | Dequant s _ _ => ov_less s
  | Overview _ _ _ => False
  end.

(* no overview node, and no warp above a leaf with stored overviews: optimize()
   has no reason to introduce an overview *)
Fixpoint ov_free (t : node) : Prop :=
  match t with
  | Leaf l => True
  | Concat ps _ => forall_parts ov_free ps
  | Crop s _ _ _ _ _ _ | Dequant s _ _ => ov_free s
  | Warp s _ _ _ => ov_less s
  | Overview _ _ _ => False
  end.

(* neither warps nor overviews: only exact operations (band selection, cropping,
   concatenation, dequantization) *)
Fixpoint exact (t : node) : Prop :=
  match t with
  | Leaf l => True
  | Concat ps _ => forall_parts exact ps
  | Crop s _ _ _ _ _ _ | Dequant s _ _ => exact s
  | Warp _ _ _ _ | Overview _ _ _ => False
  end.

(* no overviews, and every warp satisfies a condition *)
Fixpoint warps_all (P : affine -> algo -> Prop) (t : node) : Prop :=
  match t with
  | Leaf l => True
  | Concat ps _ => forall_parts (warps_all P) ps
  | Crop s _ _ _ _ _ _ | Dequant s _ _ => warps_all P s
  | Warp s M _ al => P M al /\ warps_all P s
  | Overview _ _ _ => False
  end.

(* no overviews, and every warp satisfies a condition on the size of the image it is
   applied to, its transform, its own size and its settings *)
Fixpoint warps_sized (P : option size -> affine -> size -> algo -> Prop) (t : node) : Prop :=
  match t with
  | Leaf l => True
  | Concat ps _ => forall_parts (warps_sized P) ps
  | Crop s _ _ _ _ _ _ | Dequant s _ _ => warps_sized P s
  | Warp s M d al => P (dsize s) M d al /\ warps_sized P s
  | Overview _ _ _ => False
  end.

(* the transform of a warp can be inverted *)
Definition invertible (M : affine) (_ : algo) : Prop := ~ aff_det M == 0.

(* every leaf that holds data satisfies a condition *)
Fixpoint leafs_all (P : leaf -> Prop) (t : node) : Prop :=
  match t with
  | Leaf l => match l_kind l with Data => P l | Nans => True end
  | Concat ps _ => forall_parts (leafs_all P) ps
  | Crop s _ _ _ _ _ _ | Warp s _ _ _ | Dequant s _ _ | Overview s _ _ => leafs_all P s
  end.

(* Sizes are not negative, concatenations are not empty, crops stay within the
   canvas and select at least one band, a dequantization knows its size: what
   the constructors establish over images of known size. *)
Fixpoint tight (t : node) : Prop :=
  match t with
  | Leaf l => (0 <= fst (l_dsize l) /\ 0 <= snd (l_dsize l))%Z
  | Concat ps d => ps <> [] /\ forall_parts tight ps /\ forall_parts (fun p => dsize p = d) ps
  | Crop s ys xs ci d _ _ =>
      tight s /\ ci <> Some [] /\ d = (iv_len xs, iv_len ys) /\
      exists w h, dsize s = Some (w, h) /\
        (0 <= fst xs <= snd xs)%Z /\ (snd xs <= w)%Z /\
        (0 <= fst ys <= snd ys)%Z /\ (snd ys <= h)%Z
  | Warp s _ d _ => tight s /\ (0 <= fst d /\ 0 <= snd d)%Z
  | Dequant s _ d => tight s /\ d = dsize s
  | Overview s k d => tight s /\ exists sz, dsize s = Some sz /\ d = overview_dsize k sz
  end.

(* no dequantization *)
Fixpoint dq_free (t : node) : Prop :=
  match t with
  | Leaf _ => True
  | Concat ps _ => forall_parts dq_free ps
  | Crop s _ _ _ _ _ _ | Warp s _ _ _ | Overview s _ _ => dq_free s
  | Dequant _ _ _ => False
  end.

(* at most one dequantization between the root and any leaf *)
Fixpoint dq_once (t : node) : Prop :=
  match t with
  | Leaf _ => True
  | Concat ps _ => forall_parts dq_once ps
  | Crop s _ _ _ _ _ _ | Warp s _ _ _ | Overview s _ _ => dq_once s
  | Dequant s _ _ => dq_free s
  end.

(* Trees as the API builds them: every constructor call succeeds, band
   selections are in range, warps have a non-negative size and noop_eps = 0. *)
Inductive made : node -> Prop :=
| made_leaf l : leaf_ok l -> (0 <= fst (l_dsize l) /\ 0 <= snd (l_dsize l))%Z -> made (Leaf l)
| made_concat ps t : Forall made ps -> ps <> [] -> mkConcat ps = Some t -> made t
| made_crop s sl t : made s -> mkCrop s sl None = Ok t -> made t
| made_bands s sl l t : made s -> l <> [] ->
    (forall n, num_channels s = Some n -> Forall (fun i => 0 <= i < n)%Z l) ->
    mkCrop s sl (Some l) = Ok t -> made t
| made_dequant s q : made s -> made (mkDequant s q)
| made_take s l t : made s -> l <> [] ->
    (forall n, num_channels s = Some n -> Forall (fun i => 0 <= i < n)%Z l) ->
    take_idx s l = Ok t -> made t
| made_warp s M d al : made s -> al_eps al == 0 -> (0 <= fst d /\ 0 <= snd d)%Z -> made (Warp s M d al)
| made_overview s k t : made s -> mkOverview s k = Ok t -> made t.

(* trees of exact operations *)
Definition built (t : node) : Prop := made t /\ exact t.

(* optimize() of [t] returns [t'] *)
Definition optimizes (o : oracle) (t t' : node) : Prop := exists fuel b, optimize o fuel t = Ok (t', b).

(* optimize() of [t] raises [e], however deep the recursion may go *)
Definition optimize_raises (o : oracle) (t : node) (e : exn) : Prop :=
  exists n, forall fuel, (n <= fuel)%nat -> optimize o fuel t = Err e.

(* operations over one image with data and a known number of overviews: crops
   (not empty), dequantizations, overviews of any level, and warps in P *)
Fixpoint one_image (P : affine -> algo -> Prop) (t : node) : Prop :=
  match t with
  | Leaf l => l_kind l = Data /\ l_ov l <> None
  | Concat _ _ => False
  | Crop s _ _ _ d _ _ => one_image P s /\ (0 < fst d)%Z /\ (0 < snd d)%Z
  | Warp s M _ al => one_image P s /\ P M al
  | Dequant s _ _ => one_image P s
  | Overview s _ _ => one_image P s
  end.

(* the linear part of a transform is the identity *)
Definition translates (M : affine) : Prop := a11 M == 1 /\ a12 M == 0 /\ a21 M == 0 /\ a22 M == 1.

(* The numeric decisions return on invertible transforms, never ask for a
   negative overview, and see no scaling in a translation. *)
Definition sane (o : oracle) : Prop :=
  (forall M, ~ aff_det M == 0 -> exists r, split_levels o M = Ok r /\ forall p, r = Some p -> (0 <= p)%Z) /\
  (forall M, translates M -> split_levels o M = Ok None /\ absorbs o M = false).

(* warps that do not enlarge, along the axes *)
Definition shrinks (M : affine) (al : algo) : Prop :=
  a12 M == 0 /\ a21 M == 0 /\ 0 < a11 M <= 1 /\ 0 < a22 M <= 1 /\ al_nearest al = false.
