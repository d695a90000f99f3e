(* Property theorems about optimize() on objects that may be shared.
   Vocabulary (MemoSpec.v): [session s xs] - a program made the images xs by API
   calls, and s is the state of all objects; [view (sizes s) z] - the tree the
   object z stands for in that state (size, channels and children of every node);
   [below x] - x and all objects under it; [call_optimize shared o fuel x] - the
   call x.optimize(), with one memo table for the call ([shared = true], the
   code) or without a table ([shared = false]); [writes_nothing t] - t has no
   overviews, or no dequantizations, or no warps and overviews; [all_bands t] -
   no band selections. *)
From Verif Require Import Py PyProofs GeomModel GraphModel GraphSpec GraphTotal FinalModel FinalSpec FinalProofs
  MemoModel MemoSpec MemoProofs GraphProps.
Local Open Scope Z_scope.

(** Example programs *)

Definition out (r : result (obj * store)) : obj * store :=
  match r with Ok p => p | Err _ => (OLeaf 0 (MkLeaf 0 Nans (0, 0) None None None), Store 0 (fun _ => None) []) end.
Definition returns {A} (r : result A) : bool := match r with Ok _ => true | Err _ => false end.
Lemma out_ok r : returns r = true -> r = Ok (fst (out r), snd (out r)).
Proof. destruct r as [[y s]|]; [reflexivity|discriminate]. Qed.

(* run API calls one after the other; a call sees the images made so far, newest first *)
Fixpoint program (cs : list (list obj -> act obj)) (s : store) (xs : list obj) : store * list obj :=
  match cs with
  | [] => (s, xs)
  | c :: r => let p := out (c xs s) in program r (snd p) (fst p :: xs)
  end.

Definition nth_of (xs : list obj) (n : nat) : obj := nth n xs (fst (out (Err OtherError))).
Definition s0 : store := Store 0 (fun _ => None) [].
Definition make_concat (ps : list obj) : act obj :=
  (c <~ h_concat ps ;; match c with Some c => ret c | None => raise ValueError end)%list.

(* data of 8x8 pixels with a stored overview; its overview, dequantized (2);
   that image enlarged (1) and placed on a larger canvas (0) *)
Definition ov_calls : list (list obj -> act obj) :=
  [fun _ => clone (fun i => OLeaf i (MkLeaf 1 Data (8, 8) (Some ["a"%string]) (Some 1) (Some 1)));
   fun xs => h_overview (nth_of xs 0) 1;
   fun xs => h_dequant (nth_of xs 0) (Some 5);
   fun xs => h_warp (nth_of xs 0) (aff_scale 4 4) (16, 16) default_algo;
   fun xs => h_warp (nth_of xs 1) aff_id (8, 8) default_algo].
Definition ov_prog := program ov_calls s0 [].

Ltac in_list := vm_compute; tauto.
Ltac next_call c := eapply session_make; [| |apply out_ok; vm_compute; reflexivity]; [|apply c; in_list].

Lemma ov_session : session (fst ov_prog) (snd ov_prog).
Proof.
  unfold ov_prog, ov_calls. cbn [program fst snd].
  next_call makes_warp. next_call makes_warp. next_call makes_dequant. next_call makes_overview.
  eapply session_make; [apply session_start|apply makes_leaf|apply out_ok; vm_compute; reflexivity].
Qed.

(* data of 4x4 pixels, a crop of it (2), the concatenation of the crop with
   itself (1), and the selection of both bands (0) *)
Definition tw_calls : list (list obj -> act obj) :=
  [fun _ => clone (fun i => OLeaf i (MkLeaf 2 Data (4, 4) (Some ["a"%string]) (Some 1) None));
   fun xs => h_crop (nth_of xs 0) (Some ((Some 1, Some 4), (Some 1, Some 4))) None;
   fun xs => make_concat [nth_of xs 0; nth_of xs 0];
   fun xs => h_crop (nth_of xs 0) None (Some [0; 1])].
Definition tw_prog := program tw_calls s0 [].

Lemma tw_session : session (fst tw_prog) (snd tw_prog).
Proof.
  unfold tw_prog, tw_calls. cbn [program fst snd].
  next_call makes_crop.
  eapply session_make; [| |apply out_ok; vm_compute; reflexivity]; [|apply makes_concat; repeat constructor; in_list].
  next_call makes_crop.
  eapply session_make; [apply session_start|apply makes_leaf|apply out_ok; vm_compute; reflexivity].
Qed.

Definition tw_view (n : nat) : node := view (sizes (fst tw_prog)) (nth_of (snd tw_prog) n).

Lemma tw_made_crop : made (tw_view 2).
Proof.
  apply (made_crop (img 2 4 4 ["a"%string] None) (Some ((Some 1, Some 4), (Some 1, Some 4)))); [|reflexivity].
  apply made_img; lia.
Qed.
Lemma tw_made_concat : made (tw_view 1).
Proof.
  apply (made_concat [tw_view 2; tw_view 2]); [|discriminate|reflexivity].
  repeat constructor; exact tw_made_crop.
Qed.
Lemma tw_made : made (tw_view 0).
Proof.
  apply (made_bands (tw_view 1) None [0; 1]); [exact tw_made_concat|discriminate| |reflexivity].
  intros n [= <-]. repeat constructor; lia.
Qed.

(** C34: optimizing with one memo table for the whole call gives the same as
    optimizing every occurrence of a node separately.
    Proved: (1) the same tree, namely the one the tree optimizer gives, for images
    without band selections; (2) the same array for every image of exact
    operations, selections included; (3) the same metadata and the same samples at
    every coordinate for images with warps or overviews.  In all three the image
    must be one of [writes_nothing].
    Missing: images that mix overviews, warps and dequantizations. *)
Theorem C34_same_tree_partial : forall s xs o x n1 n2 y1 s1 y2 s2,
  session s xs -> In x xs -> made (view (sizes s) x) ->
  all_bands (view (sizes s) x) -> writes_nothing (view (sizes s) x) ->
  call_optimize true o n1 x s = Ok (y1, s1) -> call_optimize false o n2 x s = Ok (y2, s2) ->
  view (sizes s1) y1 = view (sizes s2) y2 /\ optimizes o (view (sizes s) x) (view (sizes s1) y1).
Proof.
  intros s xs o x n1 n2 y1 s1 y2 s2 Hs Hx Hm Hb Hw E1 E2. apply session_heap in Hs.
  pose proof (call_plain _ _ _ _ _ _ _ _ Hs Hx Hm Hb Hw E1) as H1.
  pose proof (call_plain _ _ _ _ _ _ _ _ Hs Hx Hm Hb Hw E2) as H2.
  split; [eapply optimizes_det; eassumption|exact H1].
Qed.
Print Assumptions C34_same_tree_partial.

Theorem C34_same_array_partial : forall {V} (W : FinalModel.world V) s xs o x n1 n2 y1 s1 y2 s2,
  session s xs -> In x xs -> built (view (sizes s) x) -> all_3d W (view (sizes s) x) ->
  call_optimize true o n1 x s = Ok (y1, s1) -> call_optimize false o n2 x s = Ok (y2, s2) ->
  exists a a1 a2, finalize W (view (sizes s) x) = Ok a /\
    finalize W (view (sizes s1) y1) = Ok a1 /\ finalize W (view (sizes s2) y2) = Ok a2 /\
    same_array a a1 /\ same_array a1 a2.
Proof.
  intros V W s xs o x n1 n2 y1 s1 y2 s2 Hs Hx Hb H3 E1 E2. apply session_heap in Hs.
  destruct (call_array W _ _ _ _ _ _ _ _ Hs Hx Hb H3 E1) as (a & a1 & A & A1 & S1).
  destruct (call_array W _ _ _ _ _ _ _ _ Hs Hx Hb H3 E2) as (a' & a2 & A' & A2 & S2).
  assert (a' = a) by congruence. subst a'. exists a, a1, a2. repeat split; try assumption; try apply S1.
  all: eapply same_array_trans; [apply same_array_sym; exact S1|exact S2].
Qed.
Print Assumptions C34_same_array_partial.

Theorem C34_same_image_partial : forall s xs o x shared n y s',
  session s xs -> In x xs -> made (view (sizes s) x) ->
  nans_free (view (sizes s) x) \/ ov_free (view (sizes s) x) -> writes_nothing (view (sizes s) x) ->
  call_optimize shared o n x s = Ok (y, s') ->
  names (view (sizes s') y) = names (view (sizes s) x) /\
  num_channels (view (sizes s') y) = num_channels (view (sizes s) x) /\
  (forall X Y c p, vis (view (sizes s) x) X Y c p -> vis (view (sizes s') y) X Y c p) /\
  (ov_free (view (sizes s) x) -> dsize (view (sizes s') y) = dsize (view (sizes s) x)).
Proof. intros s xs o x shared n y s' Hs. apply session_heap in Hs. eapply call_image; eassumption. Qed.
Print Assumptions C34_same_image_partial.

(* the full claim, as equality of trees, fails: positions of a concatenation that
   hold the same object are joined by a band selection, equal objects are not *)
Theorem C34_same_tree_refuted : exists s xs x y1 s1 y2 s2,
  session s xs /\ In x xs /\ made (view (sizes s) x) /\ writes_nothing (view (sizes s) x) /\
  call_optimize true axis_oracle 20 x s = Ok (y1, s1) /\ call_optimize false axis_oracle 20 x s = Ok (y2, s2) /\
  view (sizes s1) y1 <> view (sizes s2) y2.
Proof.
  set (x := nth_of (snd tw_prog) 0). set (s := fst tw_prog).
  exists s, (snd tw_prog), x,
    (fst (out (call_optimize true axis_oracle 20 x s))), (snd (out (call_optimize true axis_oracle 20 x s))),
    (fst (out (call_optimize false axis_oracle 20 x s))), (snd (out (call_optimize false axis_oracle 20 x s))).
  split; [exact tw_session|]. split; [in_list|]. split; [exact tw_made|].
  split; [left; vm_compute; tauto|].
  split; [apply out_ok; vm_compute; reflexivity|]. split; [apply out_ok; vm_compute; reflexivity|].
  vm_compute. discriminate.
Qed.
Print Assumptions C34_same_tree_refuted.

(* (1) for the concatenation of a crop with itself, (2) for the selection of it *)
Example C34_case :
  (session (fst tw_prog) (snd tw_prog) /\ made (tw_view 1) /\ all_bands (tw_view 1) /\ writes_nothing (tw_view 1) /\
   exists a b, call_optimize true axis_oracle 20 (nth_of (snd tw_prog) 1) (fst tw_prog) = Ok a /\
               call_optimize false axis_oracle 20 (nth_of (snd tw_prog) 1) (fst tw_prog) = Ok b) /\
  (built (tw_view 0) /\ all_3d ex_world (tw_view 0) /\
   exists a b, call_optimize true axis_oracle 20 (nth_of (snd tw_prog) 0) (fst tw_prog) = Ok a /\
               call_optimize false axis_oracle 20 (nth_of (snd tw_prog) 0) (fst tw_prog) = Ok b).
Proof.
  split.
  - split; [exact tw_session|]. split; [exact tw_made_concat|]. split; [vm_compute; tauto|].
    split; [left; vm_compute; tauto|]. do 2 eexists. split; apply out_ok; vm_compute; reflexivity.
  - split; [split; [exact tw_made|vm_compute; tauto]|]. split; [vm_compute; tauto|].
    do 2 eexists. split; apply out_ok; vm_compute; reflexivity.
Qed.

(** C35: after x.optimize() every node that the program holds, of x or of any
    other image, reports the same size, channels and children as before.
    Proved: (1) when x is one of [writes_nothing]; (2) for every x, the channels
    and children of all nodes, and everything of nodes without dequantizations.
    It fails for the size of dequantizations below x otherwise. *)
Theorem C35_nodes_kept_partial : forall s xs o x shared n y s',
  session s xs -> In x xs -> writes_nothing (view (sizes s) x) ->
  call_optimize shared o n x s = Ok (y, s') ->
  forall z, In z (flat_map below xs) -> view (sizes s') z = view (sizes s) z.
Proof.
  intros s xs o x shared n y s' Hs Hx Hw E. apply session_heap in Hs.
  destruct (call_step (fun _ _ => True) o (fun _ _ _ => Logic.I) _ _ _ _ _ _ _ Hs Hx Hw E) as (_ & H & _). exact H.
Qed.
Print Assumptions C35_nodes_kept_partial.

Theorem C35_other_nodes_kept_partial : forall s xs o x shared n y s',
  session s xs -> In x xs -> call_optimize shared o n x s = Ok (y, s') ->
  forall z, In z (flat_map below xs) ->
    names (view (sizes s') z) = names (view (sizes s) z) /\
    num_channels (view (sizes s') z) = num_channels (view (sizes s) z) /\
    (dq_free (view (sizes s) z) -> view (sizes s') z = view (sizes s) z).
Proof.
  intros s xs o x shared n y s' Hs Hx E z Hz. apply session_heap in Hs.
  destruct (view_meta (sizes s) (sizes s') z) as [A B]. split; [exact A|]. split; [exact B|].
  eapply frame_dq_free; eassumption.
Qed.
Print Assumptions C35_other_nodes_kept_partial.

Theorem C35_nodes_kept_refuted : exists s xs x z y s',
  session s xs /\ In x xs /\ In z (below x) /\
  call_optimize true axis_oracle 20 x s = Ok (y, s') /\
  dsize (view (sizes s) z) = Some (4, 4) /\ dsize (view (sizes s') z) = Some (8, 8).
Proof.
  set (x := nth_of (snd ov_prog) 1). set (s := fst ov_prog).
  exists s, (snd ov_prog), x, (nth_of (snd ov_prog) 2),
    (fst (out (call_optimize true axis_oracle 20 x s))), (snd (out (call_optimize true axis_oracle 20 x s))).
  split; [exact ov_session|]. split; [in_list|]. split; [in_list|].
  split; [apply out_ok; vm_compute; reflexivity|]. split; vm_compute; reflexivity.
Qed.
Print Assumptions C35_nodes_kept_refuted.

(* the hypotheses hold for the concatenation of a crop with itself, which is rebuilt *)
Example C35_case : exists y s', session (fst tw_prog) (snd tw_prog) /\ In (nth_of (snd tw_prog) 0) (snd tw_prog) /\
  writes_nothing (tw_view 0) /\
  call_optimize true axis_oracle 20 (nth_of (snd tw_prog) 0) (fst tw_prog) = Ok (y, s') /\
  view (sizes s') y <> tw_view 0.
Proof.
  do 2 eexists. split; [exact tw_session|]. split; [in_list|]. split; [left; vm_compute; tauto|].
  split; [apply out_ok; vm_compute; reflexivity|]. vm_compute. discriminate.
Qed.

(** C94: evaluating one image does not change what another image evaluates to.
    Proved when both are [writes_nothing]: the tree that z.optimize() returns is
    the same before and after x.optimize() (z without band selections), and so is
    the array (z of exact operations).  It fails otherwise: a dequantization that
    two images share gets another size, and the second image then finalizes to an
    array of another shape. *)
Theorem C94_independent_tree_partial : forall s xs o x z n n1 n2 y s' y1 s1 y2 s2,
  session s xs -> In x xs -> In z xs -> writes_nothing (view (sizes s) x) ->
  made (view (sizes s) z) -> all_bands (view (sizes s) z) -> writes_nothing (view (sizes s) z) ->
  call_optimize true o n x s = Ok (y, s') ->
  call_optimize true o n1 z s = Ok (y1, s1) -> call_optimize true o n2 z s' = Ok (y2, s2) ->
  view (sizes s1) y1 = view (sizes s2) y2.
Proof.
  intros s xs o x z n n1 n2 y s' y1 s1 y2 s2 Hs Hx Hz Wx Mz Bz Wz E E1 E2. apply session_heap in Hs.
  destruct (call_step (fun _ _ => True) o (fun _ _ _ => Logic.I) _ _ _ _ _ _ _ Hs Hx Wx E) as (Hs' & Hv & _).
  pose proof (Hv z (root_below _ _ Hz)) as Ez.
  pose proof (call_plain _ _ _ _ _ _ _ _ Hs Hz Mz Bz Wz E1) as H1.
  rewrite <- Ez in Mz, Bz, Wz.
  pose proof (call_plain _ _ _ _ _ _ _ _ Hs' (or_intror Hz) Mz Bz Wz E2) as H2. rewrite Ez in H2.
  eapply optimizes_det; eassumption.
Qed.
Print Assumptions C94_independent_tree_partial.

Theorem C94_independent_array_partial : forall {V} (W : FinalModel.world V) s xs o x z n n1 n2 y s' y1 s1 y2 s2,
  session s xs -> In x xs -> In z xs -> writes_nothing (view (sizes s) x) ->
  built (view (sizes s) z) -> all_3d W (view (sizes s) z) ->
  call_optimize true o n x s = Ok (y, s') ->
  call_optimize true o n1 z s = Ok (y1, s1) -> call_optimize true o n2 z s' = Ok (y2, s2) ->
  exists a1 a2, finalize W (view (sizes s1) y1) = Ok a1 /\ finalize W (view (sizes s2) y2) = Ok a2 /\ same_array a1 a2.
Proof.
  intros V W s xs o x z n n1 n2 y s' y1 s1 y2 s2 Hs Hx Hz Wx Bz Dz E E1 E2. apply session_heap in Hs.
  destruct (call_step (fun _ _ => True) o (fun _ _ _ => Logic.I) _ _ _ _ _ _ _ Hs Hx Wx E) as (Hs' & Hv & _).
  pose proof (Hv z (root_below _ _ Hz)) as Ez.
  destruct (call_array W _ _ _ _ _ _ _ _ Hs Hz Bz Dz E1) as (a & a1 & A & A1 & S1).
  rewrite <- Ez in Bz, Dz.
  destruct (call_array W _ _ _ _ _ _ _ _ Hs' (or_intror Hz) Bz Dz E2) as (a' & a2 & A' & A2 & S2).
  rewrite Ez in A'. assert (a' = a) by congruence. subst a'. exists a1, a2.
  split; [exact A1|]. split; [exact A2|]. eapply same_array_trans; [apply same_array_sym; exact S1|exact S2].
Qed.
Print Assumptions C94_independent_array_partial.

Theorem C94_independent_refuted : exists s xs x z y s' y1 s1 y2 s2,
  session s xs /\ In x xs /\ In z xs /\ ~ In z (below x) /\ ~ In x (below z) /\
  call_optimize true axis_oracle 20 x s = Ok (y, s') /\
  call_optimize true axis_oracle 20 z s = Ok (y1, s1) /\ call_optimize true axis_oracle 20 z s' = Ok (y2, s2) /\
  shown (view (sizes s1) y1) = Some (8, 8) /\ shown (view (sizes s2) y2) = Some (4, 4).
Proof.
  set (x := nth_of (snd ov_prog) 1). set (z := nth_of (snd ov_prog) 0). set (s := fst ov_prog).
  set (r := call_optimize true axis_oracle 20 x s).
  set (r1 := call_optimize true axis_oracle 20 z s). set (r2 := call_optimize true axis_oracle 20 z (snd (out r))).
  exists s, (snd ov_prog), x, z, (fst (out r)), (snd (out r)), (fst (out r1)), (snd (out r1)), (fst (out r2)), (snd (out r2)).
  split; [exact ov_session|]. split; [in_list|]. split; [in_list|].
  split; [vm_compute; intuition discriminate|]. split; [vm_compute; intuition discriminate|].
  split; [apply out_ok; vm_compute; reflexivity|]. split; [apply out_ok; vm_compute; reflexivity|].
  split; [apply out_ok; vm_compute; reflexivity|]. split; vm_compute; reflexivity.
Qed.
Print Assumptions C94_independent_refuted.

Example C94_case : exists a b c,
  session (fst tw_prog) (snd tw_prog) /\ writes_nothing (tw_view 0) /\
  made (tw_view 1) /\ all_bands (tw_view 1) /\ writes_nothing (tw_view 1) /\
  built (tw_view 1) /\ all_3d ex_world (tw_view 1) /\
  call_optimize true axis_oracle 20 (nth_of (snd tw_prog) 0) (fst tw_prog) = Ok a /\
  call_optimize true axis_oracle 20 (nth_of (snd tw_prog) 1) (fst tw_prog) = Ok b /\
  call_optimize true axis_oracle 20 (nth_of (snd tw_prog) 1) (snd a) = Ok c.
Proof.
  do 3 eexists. split; [exact tw_session|]. split; [left; vm_compute; tauto|]. split; [exact tw_made_concat|].
  split; [vm_compute; tauto|]. split; [left; vm_compute; tauto|].
  split; [split; [exact tw_made_concat|vm_compute; tauto]|]. split; [vm_compute; tauto|].
  split; [apply out_ok; vm_compute; reflexivity|]. split; apply out_ok; vm_compute; reflexivity.
Qed.
