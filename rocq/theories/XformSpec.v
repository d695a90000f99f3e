(* Vocabulary for statements about transforms between delayed images. *)
From Verif Require Import Py GeomModel GraphModel GraphSpec XformModel.
Local Open Scope Q_scope.

(* two transforms move every point to the same place *)
Definition same_map (A B : affine) : Prop := forall x y, ax A x y == ax B x y /\ ay A x y == ay B x y.

(* one image operation after another over a single leaf *)
Fixpoint chain (t : node) : Prop :=
  match t with
  | Leaf _ => True
  | Concat _ _ => False
  | Crop s _ _ _ _ _ _ | Warp s _ _ _ | Dequant s _ _ | Overview s _ _ => chain s
  end.

(* the leaf below a chain *)
Fixpoint base (t : node) : option leaf :=
  match t with
  | Leaf l => Some l
  | Concat _ _ => None
  | Crop s _ _ _ _ _ _ | Warp s _ _ _ | Dequant s _ _ | Overview s _ _ => base s
  end.

(* no warp flattens the image *)
Fixpoint regular (t : node) : Prop :=
  match t with
  | Leaf _ => True
  | Concat ps _ => forall_parts regular ps
  | Warp s M _ _ => ~ aff_det M == 0 /\ regular s
  | Crop s _ _ _ _ _ _ | Dequant s _ _ | Overview s _ _ => regular s
  end.

(* the point (u, v) of the leaf ends up at (x, y) of the image, ignoring the
   borders of the canvases *)
Fixpoint moves (t : node) (u v x y : Q) : Prop :=
  match t with
  | Leaf _ => x == u /\ y == v
  | Concat _ _ => False
  | Crop s ys xs _ _ _ _ => moves s u v (x + inject_Z (fst xs)) (y + inject_Z (fst ys))
  | Warp s M _ _ => exists x' y', x == ax M x' y' /\ y == ay M x' y' /\ moves s u v x' y'
  | Dequant s _ _ => moves s u v x y
  | Overview s k _ => moves s u v (x * pow2 k) (y * pow2 k)
  end.

(* the chain [c] is what remains of [t] when one part of every concatenation is
   chosen *)
Inductive picks : node -> node -> Prop :=
| picks_leaf l : picks (Leaf l) (Leaf l)
| picks_concat ps d p c : In p ps -> picks p c -> picks (Concat ps d) c
| picks_crop s c ys xs ci d nm nc : picks s c -> picks (Crop s ys xs ci d nm nc) (Crop c ys xs ci d nm nc)
| picks_warp s c M d al : picks s c -> picks (Warp s M d al) (Warp c M d al)
| picks_dequant s c q d : picks s c -> picks (Dequant s q d) (Dequant c q d)
| picks_overview s c k d : picks s c -> picks (Overview s k d) (Overview c k d).

(* three points that do not lie on one line *)
Definition triangle (p q r : Q * Q) : Prop :=
  ~ (fst q - fst p) * (snd r - snd p) - (fst r - fst p) * (snd q - snd p) == 0.

(* the image shows some area of the data below it *)
Definition shows_area (t : node) : Prop := exists p q r,
  triangle p q r /\
  forall z, z = p \/ z = q \/ z = r -> exists c s, vis t (fst z) (snd z) c s.

(* what is assumed of kwimage: the components of an invertible transform describe
   it; without the component "offset" the same linear map without translation is
   described; no components describe the identity *)
Definition codec_ok {V} (c : codec V) : Prop :=
  (forall M, ~ aff_det M == 0 -> same_map (coerce c (concise c M)) M) /\
  (forall M, ~ aff_det M == 0 -> Forall (fun kv => In (fst kv) valid_keys) (concise c M)) /\
  (forall d x y, ax (coerce c (filter (fun kv => negb (String.eqb (fst kv) "offset")) d)) x y ==
                 ax (coerce c d) x y - ax (coerce c d) 0 0) /\
  (forall d x y, ay (coerce c (filter (fun kv => negb (String.eqb (fst kv) "offset")) d)) x y ==
                 ay (coerce c d) x y - ay (coerce c d) 0 0) /\
  same_map (coerce c []) aff_id.

(* missing data, cropped and warped *)
Fixpoint missing (t : node) : Prop :=
  match t with
  | Leaf l => l_kind l = Nans
  | Crop s _ _ _ _ _ _ | Warp s _ _ _ => missing s
  | Concat _ _ | Dequant _ _ _ | Overview _ _ _ => False
  end.
