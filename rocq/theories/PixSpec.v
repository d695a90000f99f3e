(* What a nearest-neighbour warp should show. *)
From Verif Require Import Py GeomModel GraphModel FinalModel.
Local Open Scope Q_scope.

(* the point (u, v) lies in the pixel of column x and row y *)
Definition in_pixel (u v : Q) (x y : Z) : Prop :=
  inject_Z x <= u < inject_Z x + 1 /\ inject_Z y <= v < inject_Z y + 1.

(* the pixel of column x and row y of the source is the one below the centre of the
   output pixel of column c and row r, when M moves the source *)
Definition below (M : affine) (c r x y : Z) : Prop :=
  exists u v, ax M u v == inject_Z c + (1#2) /\ ay M u v == inject_Z r + (1#2) /\ in_pixel u v x y.

Definition has_pixel {V} (a : array V) (x y : Z) : Prop := (0 <= x < a_w a)%Z /\ (0 <= y < a_h a)%Z.

(* [a'] is the image [a] moved by M onto a canvas of size d: every pixel shows the
   source pixel below its centre, or the border value when there is none *)
Definition moved {V} (fill : V) (M : affine) (d : size) (a a' : array V) : Prop :=
  a_w a' = fst d /\ a_h a' = snd d /\
  forall r c k, (0 <= c < fst d)%Z -> (0 <= r < snd d)%Z ->
    (forall x y, below M c r x y -> has_pixel a x y -> a_pix a' r c k = a_pix a y x k) /\
    ((forall x y, below M c r x y -> ~ has_pixel a x y) -> a_pix a' r c k = fill).

(* all samples of an image; an image without band axis has one band *)
Definition samples_of {V} (a : array V) : list V :=
  flat_map (fun r => flat_map (fun c => map (fun k => a_pix a r c k)
    (zseq (Z.to_nat (match a_c a with Some n => n | None => 1 end)))) (zseq (Z.to_nat (a_w a)))) (zseq (Z.to_nat (a_h a))).

(* [a'] is the image [a] stretched to size d: the left and upper edge of every pixel
   decide *)
Definition stretched {V} (d : size) (a a' : array V) : Prop :=
  a_w a' = fst d /\ a_h a' = snd d /\
  forall r c k x y, (0 <= c < fst d)%Z -> (0 <= r < snd d)%Z ->
    (x * fst d <= c * a_w a < (x + 1) * fst d)%Z -> (y * snd d <= r * a_h a < (y + 1) * snd d)%Z ->
    a_pix a' r c k = a_pix a y x k.

(* at least one entry in twenty is finite *)
Definition covered {V} (finite : V -> bool) (l : list V) : Prop :=
  l <> [] /\ (1#20) <= inject_Z (Z.of_nat (List.length (filter finite l))) / inject_Z (Z.of_nat (List.length l)).

(* version numbers in lexicographic order *)
Inductive older : list N -> list N -> Prop :=
| older_end y b : older [] (y :: b)
| older_first x a y b : (x < y)%N -> older (x :: a) (y :: b)
| older_rest x a b : older a b -> older (x :: a) (x :: b).

(* the list l has n different members *)
Definition different {V} (l : list V) (n : Z) : Prop :=
  exists u, NoDup u /\ (forall v, In v u <-> In v l) /\ Z.of_nat (List.length u) = n.
