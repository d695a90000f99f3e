(* Property theorems of the evaluation of nearest-neighbour warps.
   Vocabulary (PixSpec.v): [moved fill M d a a'] says that a' is the image a moved
   by M onto a canvas of size d, every pixel showing the source pixel below its
   centre, or the border value [fill] when there is none. *)
From Verif Require Import Py PyProofs GeomModel GeomProofs GraphModel FinalModel PixModel PixSpec PixProofs.
From Coq Require Import Ascii.
Local Open Scope Q_scope.

(* pixels are whole numbers, None is nan *)
Definition px := option Z.
Definition px_finite (v : px) : bool := match v with Some _ => true | None => false end.
Definition px_eqb (v w : px) : bool :=
  match v, w with Some x, Some y => (x =? y)%Z | None, None => true | _, _ => false end.
Definition px_world : world px := World (fun _ _ _ _ => None) (fun _ => false) None None (fun _ v => v).
(* three rows 0 1 2 / 3 4 5 / 6 7 8 *)
Definition px_square : array px := Arr 3 3 (Some 1%Z) (fun r c _ => Some (3 * r + c)%Z).

(* C104.  A nearest-neighbour warp shows, at every pixel, the source pixel below
   the centre of that pixel, or the border value. *)
Definition nearest_shows_source : Prop :=
  forall (W : world px) M d a a',
    warp_nearest W px_finite px_eqb Forward Forward M d a = Ok a' -> moved (w_fill W) M d a a'.

(* What goes wrong, one witness each:
   - a shift by a quarter of a pixel moves the image by a whole pixel: the fast
     path for axis aligned transforms looks below the corner, not the centre;
   - a warp without translation onto a canvas of another size stretches the image
     to that canvas whatever the transform says;
   - an image turned and moved off the canvas is shown anyway, stretched;
   - an image mirrored and shrunk to a third is shown magnified: the inverse
     matrix is tried as well, and wins because it leaves fewer pixels empty. *)
Theorem C104_nearest_refuted :
  (exists a', warp_nearest px_world px_finite px_eqb Forward Forward (aff_translate (1#4) 0) (3, 3)%Z px_square = Ok a' /\
     ~ moved None (aff_translate (1#4) 0) (3, 3)%Z px_square a') /\
  (exists a', warp_nearest px_world px_finite px_eqb Forward Forward (aff_scale 2 2) (3, 3)%Z px_square = Ok a' /\
     ~ moved None (aff_scale 2 2) (3, 3)%Z px_square a') /\
  (exists a', warp_nearest px_world px_finite px_eqb Forward Forward (Aff 0 (-1) 1 0 100 100) (3, 3)%Z px_square = Ok a' /\
     ~ moved None (Aff 0 (-1) 1 0 100 100) (3, 3)%Z px_square a') /\
  (exists a', warp_nearest px_world px_finite px_eqb Forward Forward (Aff (-1#3) 0 0 (1#3) 1 0) (3, 3)%Z px_square = Ok a' /\
     ~ moved None (Aff (-1#3) 0 0 (1#3) 1 0) (3, 3)%Z px_square a') /\
  ~ nearest_shows_source.
Proof.
  assert (H1 : exists a', warp_nearest px_world px_finite px_eqb Forward Forward (aff_translate (1#4) 0) (3, 3)%Z px_square = Ok a' /\
     ~ moved None (aff_translate (1#4) 0) (3, 3)%Z px_square a').
  { eexists. split; [reflexivity|]. intros (_ & _ & H). specialize (H 0%Z 0%Z 0%Z ltac:(cbn; lia) ltac:(cbn; lia)) as [H _].
    specialize (H 0%Z 0%Z). vm_compute in H. assert (X : None = Some 0%Z); [|discriminate]. apply H.
    - exists (1#4), (1#2). repeat split; vm_compute; congruence.
    - split; split; (reflexivity || discriminate). }
  split; [exact H1|]. split; [|split; [|split]].
  - eexists. split; [reflexivity|]. intros (_ & _ & H). specialize (H 0%Z 1%Z 0%Z ltac:(cbn; lia) ltac:(cbn; lia)) as [H _].
    specialize (H 0%Z 0%Z). vm_compute in H. assert (X : Some 1%Z = Some 0%Z); [|discriminate]. apply H.
    + exists (3#4), (1#4). repeat split; vm_compute; congruence.
    + split; split; (reflexivity || discriminate).
  - eexists. split; [reflexivity|]. intros (_ & _ & H). specialize (H 0%Z 0%Z 0%Z ltac:(cbn; lia) ltac:(cbn; lia)) as [_ H].
    assert (X : Some 0%Z = None); [|discriminate]. apply H.
    intros x y (u & v & Hu & Hv & [P1 P2] & [P3 P4]) [G1 G2]. unfold ax, ay in Hu, Hv. cbn [a11 a12 a21 a22 b1 b2] in Hu, Hv. cbn [px_square a_w a_h] in G1, G2. change (inject_Z 0) with 0 in *. change (inject_Z 2) with 2 in *.
    assert (inject_Z y < 3) by (change 3 with (inject_Z 3); rewrite <- Zlt_Qlt; lia). lra.
  - eexists. split; [reflexivity|]. intros (_ & _ & H). specialize (H 2%Z 2%Z 0%Z ltac:(cbn; lia) ltac:(cbn; lia)) as [_ H].
    assert (X : Some 0%Z = None); [|discriminate]. apply H.
    intros x y (u & v & Hu & Hv & [P1 P2] & [P3 P4]) [G1 G2]. unfold ax, ay in Hu, Hv. cbn [a11 a12 a21 a22 b1 b2] in Hu, Hv. cbn [px_square a_w a_h] in G1, G2. change (inject_Z 0) with 0 in *. change (inject_Z 2) with 2 in *.
    assert (inject_Z y < 3) by (change 3 with (inject_Z 3); rewrite <- Zlt_Qlt; lia).
    assert (0 <= inject_Z x) by (change 0 with (inject_Z 0); rewrite <- Zle_Qle; lia). lra.
  - intros H. destruct H1 as (a' & E & N). apply N. exact (H px_world _ _ _ _ E).
Qed.
Print Assumptions C104_nearest_refuted.

(* The cases that are right: whole factors and whole offsets, and a pure scaling by
   whole factors onto the canvas of that size, for every pixel type, border value
   and library. *)
Theorem C104_whole_partial {V} (W : world V) finite eqb mode lib (sx sy tx ty : Z) d a a' :
  (0 < sx)%Z -> (0 < sy)%Z -> (0 < a_w a)%Z -> (0 < a_h a)%Z ->
  ((tx, ty) <> (0, 0) \/ d = (sx * a_w a, sy * a_h a))%Z ->
  warp_nearest W finite eqb mode lib (Aff (inject_Z sx) 0 0 (inject_Z sy) (inject_Z tx) (inject_Z ty)) d a = Ok a' ->
  moved (w_fill W) (Aff (inject_Z sx) 0 0 (inject_Z sy) (inject_Z tx) (inject_Z ty)) d a a'.
Proof.
  intros Hx Hy Hw Hh Hd H. unfold warp_nearest in H.
  assert (A : axis_aligned (Aff (inject_Z sx) 0 0 (inject_Z sy) (inject_Z tx) (inject_Z ty)) = true).
  { assert (Px : ~ inject_Z sx <= 0) by (change 0 with (inject_Z 0); rewrite <- Zle_Qle; lia).
    assert (Py : ~ inject_Z sy <= 0) by (change 0 with (inject_Z 0); rewrite <- Zle_Qle; lia).
    unfold axis_aligned. cbn [a11 a12 a21 a22]. rewrite !andb_true_iff, !negb_true_iff. repeat split.
    - destruct (Qle_bool (inject_Z sx) 0) eqn:E; [apply Qle_bool_iff in E; contradiction|reflexivity].
    - destruct (Qle_bool (inject_Z sy) 0) eqn:E; [apply Qle_bool_iff in E; contradiction|reflexivity]. }
  rewrite A in H. destruct (Z.eq_dec tx 0) as [-> | Nx]; [destruct (Z.eq_dec ty 0) as [-> | Ny]|].
  - destruct Hd as [Hd | ->]; [congruence|]. now apply resize_moved.
  - apply shift_moved; auto.
  - apply shift_moved; auto.
Qed.
Print Assumptions C104_whole_partial.

Example C104_whole_case : exists a',
  warp_nearest px_world px_finite px_eqb Forward Forward (Aff 2 0 0 1 (inject_Z 1) (inject_Z 1)) (5, 3)%Z px_square = Ok a' /\
  map (fun r => map (fun c => a_pix a' r c 0%Z) [0; 1; 2; 3; 4]%Z) [0; 1; 2]%Z =
  [[None; None; None; None; None]; [None; Some 0; Some 0; Some 1; Some 1]; [None; Some 3; Some 3; Some 4; Some 4]]%Z.
Proof. eexists. split; reflexivity. Qed.

(* Any other invertible transform: the image moved by M is returned when it covers
   at least one entry in twenty and has more finite entries than the image moved
   the other way, provided the direction of matrixes is the one the library
   expects. *)
Theorem C104_general_partial {V} (W : world V) finite eqb mode M I d a a' forth back :
  axis_aligned M = false -> aff_inv M = Ok I ->
  moved (w_fill W) M d a forth -> moved (w_fill W) I d a back -> a_c forth = a_c a -> a_c back = a_c a ->
  covered finite (samples_of forth) ->
  (List.length (filter finite (samples_of back)) < List.length (filter finite (samples_of forth)))%nat ->
  warp_nearest W finite eqb mode mode M d a = Ok a' -> moved (w_fill W) M d a a'.
Proof.
  intros A HI H1 H2 C1 C2 Hc Hl H. unfold warp_nearest in H. rewrite A in H.
  rewrite <- !entries_samples in *. exact (general_forward _ _ _ _ _ _ _ _ _ _ _ HI H1 H2 C1 C2 Hc Hl H).
Qed.
Print Assumptions C104_general_partial.

(* mirrored and magnified three times *)
Definition px_flip3 : affine := Aff (-(3)) 0 0 3 3 0.
Example C104_general_case : exists I,
  axis_aligned px_flip3 = false /\ aff_inv px_flip3 = Ok I /\
  let forth := sample_at px_world I (3, 3)%Z px_square in
  let back := sample_at px_world px_flip3 (3, 3)%Z px_square in
  moved None px_flip3 (3, 3)%Z px_square forth /\
  covered px_finite (samples_of forth) /\
  (List.length (filter px_finite (samples_of back)) < List.length (filter px_finite (samples_of forth)))%nat.
Proof.
  eexists. split; [reflexivity|]. split; [reflexivity|]. cbv zeta. split; [|split].
  - apply (sample_moved px_world). reflexivity.
  - split; vm_compute; congruence.
  - apply Nat.ltb_lt. vm_compute. reflexivity.
Qed.

(* Transforms that undo themselves (mirror images, turns by half a circle): only
   the share of finite pixels matters. *)
Theorem C104_involution_partial {V} (W : world V) finite eqb mode M d a a' b :
  axis_aligned M = false -> ~ aff_det M == 0 ->
  (forall x y, ax M (ax M x y) (ay M x y) == x /\ ay M (ax M x y) (ay M x y) == y) ->
  moved (w_fill W) M d a b -> a_c b = a_c a -> covered finite (samples_of b) ->
  warp_nearest W finite eqb mode mode M d a = Ok a' -> moved (w_fill W) M d a a'.
Proof.
  intros A HD Hinv H1 C1 Hc H. unfold warp_nearest in H. rewrite A in H.
  rewrite <- !entries_samples in *. exact (general_involution _ _ _ _ _ _ _ _ _ Hinv HD H1 C1 Hc H).
Qed.
Print Assumptions C104_involution_partial.

(* the mirror image of the square, one column to the right *)
Definition px_mirror : affine := Aff (-(1)) 0 0 1 4 0.
Example C104_involution_case : exists a',
  (forall x y, ax px_mirror (ax px_mirror x y) (ay px_mirror x y) == x /\ ay px_mirror (ax px_mirror x y) (ay px_mirror x y) == y) /\
  warp_nearest px_world px_finite px_eqb Forward Forward px_mirror (3, 3)%Z px_square = Ok a' /\
  map (fun r => map (fun c => a_pix a' r c 0%Z) [0; 1; 2]%Z) [0; 1; 2]%Z =
  [[None; Some 2; Some 1]; [None; Some 5; Some 4]; [None; Some 8; Some 7]]%Z.
Proof.
  eexists. split; [|split; reflexivity]. intros x y. unfold px_mirror, ax, ay. cbn [a11 a12 a21 a22 b1 b2]. split; lra.
Qed.

(* Images without missing values are never stretched: what comes back is the image
   moved by M or the image moved by its inverse. *)
Theorem C104_finite_partial {V} (W : world V) finite eqb mode M I d a a' :
  axis_aligned M = false -> aff_inv M = Ok I ->
  (forall v, finite v = true) -> (0 < fst d)%Z -> (0 < snd d)%Z ->
  match a_c a with Some n => (0 < n)%Z | None => True end ->
  warp_nearest W finite eqb mode mode M d a = Ok a' ->
  moved (w_fill W) M d a a' \/ moved (w_fill W) I d a a'.
Proof.
  intros A HI Hf Hw Hh Hn H. unfold warp_nearest in H. rewrite A in H.
  exact (general_finite _ _ _ _ _ _ _ _ _ HI Hf Hw Hh Hn H).
Qed.
Print Assumptions C104_finite_partial.

Example C104_finite_case :
  let W := World (fun _ _ _ _ => 0%Z) (fun _ => false) 0%Z 0%Z (fun _ v => v) in
  exists a', warp_nearest W (fun _ => true) Z.eqb Forward Forward (Aff 0 (-(1)) 1 0 3 0) (3, 3)%Z
    (Arr 3 3 (Some 1%Z) (fun r c _ => (3 * r + c)%Z)) = Ok a' /\
  map (fun r => map (fun c => a_pix a' r c 0%Z) [0; 1; 2]%Z) [0; 1; 2]%Z = [[6; 3; 0]; [7; 4; 1]; [8; 5; 2]]%Z.
Proof. eexists. split; reflexivity. Qed.

(* When both ways show as many finite entries, the way that keeps the number of
   different values of the source better is taken, and of two equally good ones the
   one with more values. *)
Theorem C104_values_partial {V} (W : world V) finite eqb mode M I d a a' forth back n n1 n2 :
  (forall u v, eqb u v = true <-> u = v) ->
  axis_aligned M = false -> aff_inv M = Ok I ->
  moved (w_fill W) M d a forth -> moved (w_fill W) I d a back -> a_c forth = a_c a -> a_c back = a_c a ->
  covered finite (samples_of forth) ->
  List.length (filter finite (samples_of back)) = List.length (filter finite (samples_of forth)) ->
  different (filter finite (samples_of a)) n ->
  different (filter finite (samples_of forth)) n1 -> different (filter finite (samples_of back)) n2 ->
  warp_nearest W finite eqb mode mode M d a = Ok a' ->
  ((Z.abs (n1 - n) < Z.abs (n2 - n))%Z -> moved (w_fill W) M d a a') /\
  ((Z.abs (n2 - n) < Z.abs (n1 - n))%Z -> moved (w_fill W) I d a a') /\
  (Z.abs (n1 - n) = Z.abs (n2 - n) -> (n2 < n1)%Z -> moved (w_fill W) M d a a').
Proof.
  intros He A HI H1 H2 C1 C2 Hc Hf Dn D1 D2 H. unfold warp_nearest in H. rewrite A in H. rewrite <- !entries_samples in *.
  pose proof (fun Hne => general_values W finite eqb He mode M I d a a' forth back n n1 n2
    HI H1 H2 C1 C2 Hc Hf Dn D1 D2 Hne H) as G. split; [|split].
  - intros L. specialize (G ltac:(lia)). assert (E : (Z.abs (n1 - n) <? Z.abs (n2 - n) = true)%Z) by lia.
    rewrite E in G. exact G.
  - intros L. specialize (G ltac:(lia)). assert (E : (Z.abs (n1 - n) <? Z.abs (n2 - n) = false)%Z) by lia.
    assert (E' : (Z.abs (n1 - n) =? Z.abs (n2 - n) = false)%Z) by lia. rewrite E, E' in G. exact G.
  - intros L L'. specialize (G ltac:(lia)). assert (E' : (Z.abs (n1 - n) =? Z.abs (n2 - n) = true)%Z) by lia.
    assert (E : (n2 <? n1 = true)%Z) by lia. rewrite E, E', orb_true_r in G. exact G.
Qed.
Print Assumptions C104_values_partial.

(* nine values without missing ones, mirrored and shrunk three times: moved by M one
   value is seen beside the border value, moved back only one value; mirrored and
   magnified it is the other way round, and the wrong image is returned *)
Example C104_values_case :
  let W := World (fun _ _ _ _ => 0%Z) (fun _ => false) 0%Z 0%Z (fun _ v => v) in
  let a := Arr 3 3 (Some 1%Z) (fun r c _ => (3 * r + c + 1)%Z) in
  let M := Aff (-(1#3)) 0 0 (1#3) 1 0 in
  let I := Aff (-(3)) 0 0 3 3 0 in
  samples_of (sample_at W I (3, 3)%Z a) = [5; 0; 0; 0; 0; 0; 0; 0; 0]%Z /\
  samples_of (sample_at W M (3, 3)%Z a) = [1; 1; 1; 1; 1; 1; 1; 1; 1]%Z /\
  (forall N, N = M \/ N = I -> axis_aligned N = false) /\
  rmap samples_of (warp_nearest W (fun _ => true) Z.eqb Forward Forward M (3, 3)%Z a) = Ok [5; 0; 0; 0; 0; 0; 0; 0; 0]%Z /\
  rmap samples_of (warp_nearest W (fun _ => true) Z.eqb Forward Forward I (3, 3)%Z a) = Ok [5; 0; 0; 0; 0; 0; 0; 0; 0]%Z.
Proof. cbv zeta. split; [reflexivity|]. split; [reflexivity|]. split; [intros N [-> | ->]; reflexivity|]. split; reflexivity. Qed.

(* When neither way shows one finite entry in twenty, the source is stretched to the
   canvas. *)
Theorem C104_rescue_partial {V} (W : world V) finite eqb mode M I d a a' forth back :
  axis_aligned M = false -> aff_inv M = Ok I ->
  moved (w_fill W) M d a forth -> moved (w_fill W) I d a back -> a_c forth = a_c a -> a_c back = a_c a ->
  ~ covered finite (samples_of forth) -> ~ covered finite (samples_of back) ->
  warp_nearest W finite eqb mode mode M d a = Ok a' -> stretched d a a'.
Proof.
  intros A HI H1 H2 C1 C2 N1 N2 H. unfold warp_nearest in H. rewrite A in H. rewrite <- !entries_samples in *.
  exact (general_rescue _ _ _ _ _ _ _ _ _ _ _ HI H1 H2 C1 C2 N1 N2 H).
Qed.
Print Assumptions C104_rescue_partial.

(* turned and moved off the canvas *)
Example C104_rescue_case : exists I a',
  let M := Aff 0 (-(1)) 1 0 100 100 in
  axis_aligned M = false /\ aff_inv M = Ok I /\
  samples_of (sample_at px_world I (2, 2)%Z px_square) = [None; None; None; None] /\
  samples_of (sample_at px_world M (2, 2)%Z px_square) = [None; None; None; None] /\
  warp_nearest px_world px_finite px_eqb Forward Forward M (2, 2)%Z px_square = Ok a' /\
  samples_of a' = [Some 0; Some 1; Some 3; Some 4]%Z.
Proof. do 2 eexists. cbv zeta. repeat (split; [reflexivity|]). reflexivity. Qed.

(* Whatever is shown, the result has the requested size and a band axis. *)
Theorem C104_size_partial {V} (W : world V) finite eqb mode lib M d a a' :
  warp_nearest W finite eqb mode lib M d a = Ok a' ->
  a_w a' = fst d /\ a_h a' = snd d /\ a_c a' = Some (match a_c a with Some n => n | None => 1%Z end).
Proof. apply warp_nearest_size. Qed.
Print Assumptions C104_size_partial.

(* a grey image *)
Example C104_size_case : exists a',
  warp_nearest px_world px_finite px_eqb Forward Forward (Aff 0 (-(1)) 1 0 3 0) (3, 2)%Z (Arr 3 3 None (fun r c _ => Some (3 * r + c)%Z)) = Ok a' /\
  (a_h a', a_w a', a_c a') = (2, 3, Some 1)%Z /\ samples_of a' = [Some 6; Some 3; Some 0; Some 7; Some 4; Some 1]%Z.
Proof. eexists. split; [reflexivity|]. split; reflexivity. Qed.

(* C105.  The matrix is handed over inverted exactly when kwimage is older than
   0.12.0, OpenCV is 4.13, the warp is done by OpenCV with nearest interpolation
   and the pixels are float64. *)
Theorem C105_matrix_mode (kw cv : list N) float64 b nearest :
  matrix_mode (join "." (map N_str kw)) (Some (join "." (map N_str cv))) float64 b nearest = Inverse <->
  older kw [0; 12; 0]%N /\ (exists rest, cv = (4 :: 13 :: rest)%N) /\ b <> OtherBackend /\ nearest = true /\ float64 = true.
Proof.
  unfold matrix_mode. rewrite version_dotted. cbn [option_map]. rewrite version_dotted.
  pose proof (tuple_older kw [0; 12; 0]%N) as K. change (map Z.of_N [0; 12; 0]%N) with [0; 12; 0]%Z in K.
  destruct (tuple_geb (map Z.of_N kw) [0; 12; 0]%Z).
  - split; [discriminate|]. intros [H _]. apply K in H. discriminate.
  - assert (C : (match firstn 2 (map Z.of_N cv) with [x; y] => (x =? 4) && (y =? 13) | _ => false end = true)%Z <->
      exists rest, cv = (4 :: 13 :: rest)%N).
    { destruct cv as [|c0 [|c1 cv]]; cbn [map firstn].
      - split; [discriminate|intros [r H]; discriminate].
      - split; [discriminate|intros [r H]; discriminate].
      - split.
        + intros H. rewrite andb_true_iff in H. exists cv. f_equal; [lia|]. f_equal. lia.
        + intros [r H]. injection H as -> -> ->. reflexivity. }
    set (m := match firstn 2 (map Z.of_N cv) with [x; y] => _ | _ => _ end) in *. clearbody m.
    destruct b; cbn iota beta.
    + destruct nearest, float64, m; cbn [andb]; split; try discriminate; try (intros (_ & Hc & _ & Hn & Hf); apply C in Hc; congruence);
        try reflexivity; intros _; split; [now apply K|]; split; [now apply C|]; repeat split; discriminate.
    + destruct nearest, float64, m; cbn [andb]; split; try discriminate; try (intros (_ & Hc & _ & Hn & Hf); apply C in Hc; congruence);
        try reflexivity; intros _; split; [now apply K|]; split; [now apply C|]; repeat split; discriminate.
    + split; [discriminate|]. intros (_ & _ & N & _). congruence.
Qed.
Print Assumptions C105_matrix_mode.

Example C105_case :
  matrix_mode "0.11.3" (Some "4.13.0"%string) true Auto true = Inverse /\
  matrix_mode "0.12.0" (Some "4.13.0"%string) true Auto true = Forward /\
  matrix_mode "0.11.3" (Some "4.12.0"%string) true Cv2 true = Forward /\
  matrix_mode "0.11.3" None true Auto true = Forward.
Proof. repeat split. Qed.

(* Without OpenCV nothing is inverted, whatever the texts of the versions are. *)
Theorem C105_without_opencv kw float64 b nearest : matrix_mode kw None float64 b nearest = Forward.
Proof. unfold matrix_mode. destruct (tuple_geb _ _); [reflexivity|]. destruct b; reflexivity. Qed.
Print Assumptions C105_without_opencv.

(* C106.  Pixels without source data show the border value of the warp: the same
   number in all bands, or number k of a sequence in band k. *)
Definition border_per_band : Prop :=
  forall (W : world Z) auto l n tx ty d a a' r c k,
    a_c a = Some n -> Z.of_nat (List.length l) = n -> (n <= 4)%Z -> (0 <= k < n)%Z ->
    warp_border W auto (BorderNumbers l) (Aff 1 0 0 1 (inject_Z tx) (inject_Z ty)) d a = Ok a' ->
    (0 <= c < fst d)%Z -> (0 <= r < snd d)%Z ->
    (forall x y, below (Aff 1 0 0 1 (inject_Z tx) (inject_Z ty)) c r x y -> ~ has_pixel a x y) ->
    a_pix a' r c k = nth (Z.to_nat k) l auto.

Definition z_world : world Z := World (fun _ _ _ _ => 0%Z) (fun _ => false) 0%Z 0%Z (fun _ v => v).
Definition z_pair : array Z := Arr 2 2 (Some 2%Z) (fun r c k => (10 * k + 2 * r + c)%Z).

(* with border_value=(7, 9) the second band shows 7 *)
Theorem C106_border_refuted : ~ border_per_band.
Proof.
  intros H. assert (E : exists a', warp_border z_world 0%Z (BorderNumbers [7; 9]%Z) (Aff 1 0 0 1 (inject_Z 1) (inject_Z 0)) (2, 2)%Z z_pair = Ok a' /\
    a_pix a' 0%Z 0%Z 1%Z = 7%Z) by (eexists; split; reflexivity).
  destruct E as (a' & E & Ev). assert (X : a_pix a' 0 0 1 = 9%Z); [|congruence].
  refine (H z_world 0%Z [7; 9]%Z 2%Z 1%Z 0%Z (2, 2)%Z z_pair a' 0%Z 0%Z 1%Z eq_refl eq_refl _ _ E _ _ _); try (cbn; lia).
  intros x y Hb [G1 G2]. apply (below_whole 1 1 1 0) in Hb as [-> ->]; [|lia|lia]. rewrite Z.div_1_r in G1. lia.
Qed.
Print Assumptions C106_border_refuted.

(* One number, or 'auto': all bands show it; a longer sequence than OpenCV can
   take is rejected. *)
Theorem C106_border_partial {V} (W : world V) auto b v sx sy tx ty d a a' :
  match a_c a with Some n => (0 < n)%Z | None => True end ->
  (b = BorderNumber v \/ b = BorderAuto /\ v = auto \/ exists l, b = BorderNumbers (v :: l)) ->
  (0 < sx)%Z -> (0 < sy)%Z -> (0 < a_w a)%Z -> (0 < a_h a)%Z -> (tx, ty) <> (0, 0)%Z ->
  warp_border W auto b (Aff (inject_Z sx) 0 0 (inject_Z sy) (inject_Z tx) (inject_Z ty)) d a = Ok a' ->
  moved v (Aff (inject_Z sx) 0 0 (inject_Z sy) (inject_Z tx) (inject_Z ty)) d a a'.
Proof.
  intros Hn Hb Hx Hy Hw Hh Ht H. unfold warp_border in H. set (n := match a_c a with Some n => n | None => 1%Z end) in *.
  assert (Pn : (0 < n)%Z) by (unfold n; destruct (a_c a); [exact Hn|reflexivity]). clearbody n.
  assert (G : forall o, border_values auto b n = Ok (Some o) -> exists o', o = v :: o').
  { intros o. unfold border_values. destruct (Z.to_nat (Z.min 4 n)) as [|m] eqn:Em; [lia|].
    destruct Hb as [-> | [[-> ->] | [l ->]]]; cbn [repeat];
      (destruct (4 <? _)%Z; [discriminate|]); cbn [firstn]; intros E; injection E as <-; eauto. }
  destruct (border_values auto b n) as [[o|]|e] eqn:Eb; cbn [bind] in H; try discriminate.
  destruct (G _ eq_refl) as (o' & ->). cbn iota in H. change v with (w_fill (with_fill W v)).
  apply shift_moved; auto. destruct (Z.eq_dec tx 0) as [-> | N]; [|now left]. right. congruence.
Qed.
Print Assumptions C106_border_partial.

Theorem C106_too_many {V} (W : world V) auto l M d a : (4 < List.length l)%nat ->
  warp_border W auto (BorderNumbers l) M d a = Err ValueError.
Proof.
  intros H. unfold warp_border, border_values. replace (4 <? Z.of_nat (List.length l))%Z with true by lia. reflexivity.
Qed.
Print Assumptions C106_too_many.

Example C106_case : exists a',
  warp_border z_world 0%Z (BorderNumber 7%Z) (Aff 1 0 0 1 (inject_Z 1) (inject_Z 0)) (2, 2)%Z z_pair = Ok a' /\
  map (fun k => map (fun c => a_pix a' 0%Z c k) [0; 1]%Z) [0; 1]%Z = [[7; 0]; [7; 10]]%Z.
Proof. eexists. split; reflexivity. Qed.
