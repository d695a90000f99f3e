(* C141: image[ys, xs, bands] with the bands given as a list, a slice or one
   integer. *)
From Verif Require Import Py PyProofs GeomModel GeomProofs GraphModel GraphSpec FinalModel FinalSpec FinalProofs
  TakeModel TakeSpec CropProofs BandIndexModel BandIndexSpec BandIndexProofs.
From Coq Require Import Lia.
Local Open Scope Z_scope.

(** C141: a subscript selects what the same subscript of the array selects, and the
    names follow.  (Of an image whose channels have names: see C141_unnamed_refuted.) *)
Theorem C141_selects_partial : forall {V} (W : world V) l nl v, stored W l nl -> indexed l v ->
  exists a nms, v_finalize W v = Ok a /\ v_names v = Some nms /\ v_dsize v = (a_w a, a_h a) /\
    v_channels v = a_c a /\ a_c a = Some (Z.of_nat (List.length nms)) /\
    forall ys xs b v', v_index v (Three ys xs b) = Ok v' ->
      in_range (Z.of_nat (List.length nms)) b /\
      exists a' nms', v_finalize W v' = Ok a' /\
        selection a (sliced ys (upto (a_h a))) (sliced xs (upto (a_w a))) (picked b (Z.of_nat (List.length nms))) a' /\
        v_names v' = Some nms' /\ items (Some (picked b (Z.of_nat (List.length nms)))) nms nms' /\
        v_dsize v' = (a_w a', a_h a').
Proof.
  intros V W l nl v HS Hv. destruct (indexed_means W l nl HS v Hv) as (y0 & x0 & h & w & bs & nms & a & M).
  pose proof (means_names _ _ _ _ _ _ _ _ _ _ _ M) as L.
  exists a, nms. pose proof M as [Md My Mx Mb Mn Mi Mv Mf Mh Mw Mc Mp].
  split; [exact Mf|]. split; [exact Mn|]. split; [congruence|]. split; [congruence|]. split; [congruence|].
  intros ys xs b v' E. cbn [v_index] in E.
  destruct (new_select_means W l nl _ _ _ _ _ _ _ _ _ _ _ _ M E) as (y & x & nm & nc & nms' & a' & Hy & Hx & Ev & Ko & Ki & A1 & A2 & A3 & A4 & M').
  cbn [kept kept_ok] in *. rewrite L. split; [exact Ko|]. exists a', nms'. split; [exact (m_final _ _ _ _ _ _ _ _ _ _ _ M')|].
  split; [|split; [exact (m_names _ _ _ _ _ _ _ _ _ _ _ M')|split; [exact Ki|rewrite (m_dsize _ _ _ _ _ _ _ _ _ _ _ M'); congruence]]].
  rewrite Mh, Mw. destruct (sliced_upto h ys y ltac:(lia) Hy) as [Ly Ny]. destruct (sliced_upto w xs x ltac:(lia) Hx) as [Lx Nx].
  split; [congruence|]. split; [congruence|]. split; [exact A3|].
  intros i j k r c p Hr Hc Hp. apply Ny in Hr. apply Nx in Hc.
  assert (K : (k < List.length (picked b (Z.of_nat (List.length bs))))%nat) by (apply nth_error_Some; congruence).
  rewrite A4 by lia. rewrite Nat2Z.id, (nth_error_nth _ _ 0 Hp). f_equal; lia.
Qed.
Print Assumptions C141_selects_partial.

(** C141: a subscript without bands keeps them all *)
Theorem C141_window : forall {V} (W : world V) l nl v a nms ys xs v', stored W l nl -> indexed l v ->
  v_finalize W v = Ok a -> v_names v = Some nms -> v_index v (Two ys xs) = Ok v' ->
  exists a', v_finalize W v' = Ok a' /\ v_names v' = Some nms /\ v_dsize v' = (a_w a', a_h a') /\ v_channels v' = a_c a' /\
    selection a (sliced ys (upto (a_h a))) (sliced xs (upto (a_w a))) (upto (Z.of_nat (List.length nms))) a'.
Proof.
  intros V W l nl v a0 nms0 ys xs v' HS Hv Fa0 Fn0 E. destruct (indexed_means W l nl HS v Hv) as (y0 & x0 & h & w & bs & nms & a & M).
  pose proof (means_names _ _ _ _ _ _ _ _ _ _ _ M) as L. pose proof M as [Md My Mx Mb Mn Mi Mv Mf Mh Mw Mc Mp].
  rewrite Mf in Fa0. injection Fa0 as <-. rewrite Mn in Fn0. injection Fn0 as <-. cbn [v_index] in E.
  destruct (new_select_means W l nl _ _ _ _ _ _ _ _ _ _ _ _ M E) as (y & x & nm & nc & nms' & a' & Hy & Hx & Ev & Ko & Ki & A1 & A2 & A3 & A4 & M').
  cbn [kept kept_ok] in *. rewrite through_all in M'. exists a'. split; [exact (m_final _ _ _ _ _ _ _ _ _ _ _ M')|].
  assert (nm = None) as ->. { unfold new_select in E. rewrite Md in E. cbn [fst snd] in E. rewrite Hy, Hx in E. cbn in E. rewrite Ev in E. now injection E. }
  split; [rewrite Ev; exact Mn|]. split; [rewrite (m_dsize _ _ _ _ _ _ _ _ _ _ _ M'); congruence|].
  split; [rewrite (m_nc _ _ _ _ _ _ _ _ _ _ _ M'), (m_c _ _ _ _ _ _ _ _ _ _ _ M'); reflexivity|].
  rewrite Mh, Mw, L. destruct (sliced_upto h ys y ltac:(lia) Hy) as [Ly Ny]. destruct (sliced_upto w xs x ltac:(lia) Hx) as [Lx Nx].
  split; [congruence|]. split; [congruence|]. split; [exact A3|].
  intros i j k r c p Hr Hc Hp. apply Ny in Hr. apply Nx in Hc.
  assert (K : (k < List.length (upto (Z.of_nat (List.length bs))))%nat) by (apply nth_error_Some; congruence).
  rewrite A4 by lia. rewrite Nat2Z.id, (nth_error_nth _ _ 0 Hp). f_equal; lia.
Qed.
Print Assumptions C141_window.

(** C141: the subscript is accepted exactly when every index names a band, whatever the
    way they are written, and is an IndexError otherwise; a subscript that is no tuple is a
    TypeError and a tuple of another length a ValueError *)
Theorem C141_accepted_partial : forall {V} (W : world V) l nl v ys xs b w h y x nms, stored W l nl -> indexed l v ->
  v_dsize v = (w, h) -> wrap_clip h ys = Ok y -> wrap_clip w xs = Ok x -> v_names v = Some nms ->
  (in_range (Z.of_nat (List.length nms)) b -> exists v', v_index v (Three ys xs b) = Ok v') /\
  (~ in_range (Z.of_nat (List.length nms)) b -> v_index v (Three ys xs b) = Err IndexError) /\
  v_index v NotTuple = Err TypeError /\ v_index v OtherDims = Err ValueError.
Proof.
  intros V W l nl v ys xs b w h y x nms HS Hv Hd Hy Hx Hn. cbn [v_index]. unfold new_select. rewrite Hd. cbn [fst snd]. rewrite Hy, Hx, Hn. cbn [bind]. split; [|split; [|auto]]; intros H.
  - destruct (choose_ok nms b H) as (nms' & -> & _). cbn [bind]. eauto.
  - rewrite (choose_bad nms b H). reflexivity.
Qed.
Print Assumptions C141_accepted_partial.

(** C141: optimize() of nested selections: it succeeds exactly when at most one of them
    selects bands, or all of them by lists, and then the image is the same *)
Theorem C141_optimize_partial : forall {V} (W : world V) l nl v, stored W l nl -> indexed l v ->
  (fusable (selections v) -> exists v' a a', v_optimize v = Ok v' /\ v_finalize W v = Ok a /\ v_finalize W v' = Ok a' /\
     same_array a a' /\ v_names v' = v_names v /\ v_dsize v' = v_dsize v) /\
  (~ fusable (selections v) -> v_optimize v = Err TypeError).
Proof.
  intros V W l nl v HS Hv. destruct (optimize_means W l nl HS v Hv) as (y0 & x0 & h & w & bs & nms & a & M & _ & H1 & H2).
  split; [|exact H2]. intros Hf. destruct (H1 Hf) as (v' & E & [[-> ->]|(b1 & nm & nc & a' & _ & _ & _ & _ & M')]).
  - exists (Source l), a, a. split; [exact E|]. pose proof (m_final _ _ _ _ _ _ _ _ _ _ _ M) as Fa. split; [exact Fa|]. split; [exact Fa|].
    split; [|auto]. unfold same_array. auto.
  - exists v', a, a'. destruct (same_means W l nl _ _ _ _ _ _ _ _ _ _ _ M M') as (_ & S & D).
    split; [exact E|]. split; [exact (m_final _ _ _ _ _ _ _ _ _ _ _ M)|]. split; [exact (m_final _ _ _ _ _ _ _ _ _ _ _ M')|].
    split; [exact S|]. split; [|exact D]. rewrite (m_names _ _ _ _ _ _ _ _ _ _ _ M), (m_names _ _ _ _ _ _ _ _ _ _ _ M'). reflexivity.
Qed.
Print Assumptions C141_optimize_partial.

(* a 6 x 5 image r|g|b whose samples tell where they come from *)
Definition bi_leaf : leaf := MkLeaf 7 Data (6, 5) (Some ["r"; "g"; "b"]%string) (Some 3) None.
(* the same without channel names *)
Definition bi_unnamed : leaf := MkLeaf 7 Data (6, 5) None (Some 3) None.
Definition bi_world : world Z := World (fun i r c b => 1000 * i + 100 * r + 10 * c + b) (fun _ => false) (-1) 0 (fun _ v => v).

Lemma bi_stored : stored bi_world bi_leaf ["r"; "g"; "b"]%string.
Proof. repeat split; cbn; lia. Qed.

Notation all := (None, None) (only parsing).

(** C141 is false of nested selections: image[:, :, 0:2][:, :, [1]] finalizes to the band
    g without optimization, and finalize() raises TypeError.  So does image[:, :, 2][:, :, [0]]. *)
Theorem C141_optimize_refuted : exists v v' u u' a,
  stored bi_world bi_leaf ["r"; "g"; "b"]%string /\
  v_index (Source bi_leaf) (Three all all (BandSlice (Some 0, Some 2))) = Ok v /\
  v_index v (Three all all (BandList [1])) = Ok v' /\ indexed bi_leaf v' /\
  v_names v' = Some ["g"%string] /\ v_finalize bi_world v' = Ok a /\ a_pix a 2 3 0 = 7231 /\ v_optimize v' = Err TypeError /\
  v_index (Source bi_leaf) (Three all all (BandInt 2)) = Ok u /\
  v_index u (Three all all (BandList [0])) = Ok u' /\ v_names u' = Some ["b"%string] /\ v_optimize u' = Err TypeError.
Proof.
  do 5 eexists. split; [exact bi_stored|]. split; [vm_compute; reflexivity|]. split; [vm_compute; reflexivity|].
  split; [apply (Ix_step bi_leaf _ (Three all all (BandList [1])) _ (Ix_step bi_leaf _ (Three all all (BandSlice (Some 0, Some 2))) _ (Ix_source _) eq_refl)); vm_compute; reflexivity|].
  split; [reflexivity|]. split; [vm_compute; reflexivity|]. split; [vm_compute; reflexivity|]. split; [vm_compute; reflexivity|].
  split; [vm_compute; reflexivity|]. split; [vm_compute; reflexivity|]. split; vm_compute; reflexivity.
Qed.
Print Assumptions C141_optimize_refuted.

(** C141 is false of images without channel names: a list of indexes selects bands, a
    slice or an integer that means the same bands is a TypeError *)
Theorem C141_unnamed_refuted : forall ys xs y x, wrap_clip 5 ys = Ok y -> wrap_clip 6 xs = Ok x ->
  (forall s, v_index (Source bi_unnamed) (Three ys xs (BandSlice s)) = Err TypeError) /\
  (forall k, v_index (Source bi_unnamed) (Three ys xs (BandInt k)) = Err TypeError) /\
  (forall l, exists v, v_index (Source bi_unnamed) (Three ys xs (BandList l)) = Ok v).
Proof.
  intros ys xs y x Hy Hx. cbn [v_index]. unfold new_select. cbn [v_dsize bi_unnamed l_dsize fst snd]. rewrite Hy, Hx. cbn [bind]. 
  split; [reflexivity|]. split; [reflexivity|]. intros l. cbn. eauto.
Qed.
Print Assumptions C141_unnamed_refuted.

Example C141_case : exists v1 v2 v3,
  v_index (Source bi_leaf) (Three (Some 1, None) (None, Some (-1)) (BandList [2; 0; -2])) = Ok v1 /\
  v_index v1 (Two (Some 1, Some 3) all) = Ok v2 /\
  v_index v2 (Three all (Some 2, None) (BandList [-1; 0])) = Ok v3 /\
  fusable (selections v3) /\ v_names v3 = Some ["g"; "b"]%string /\ v_dsize v3 = (3, 2) /\
  rmap (fun a => (a_h a, a_w a, a_c a, a_pix a 1 0 0, a_pix a 1 0 1)) (v_finalize bi_world v3) = Ok (2, 3, Some 2, 7321, 7322) /\
  rmap selections (v_optimize v3) = Ok [BandList [-2; 2]] /\
  rmap (fun v => v_names v) (v_index v2 (Three all all (BandSlice (Some 1, None)))) = Ok (Some ["r"; "g"]%string) /\
  v_index v2 (Three all all (BandInt 3)) = Err IndexError.
Proof.
  do 3 eexists. split; [vm_compute; reflexivity|]. split; [vm_compute; reflexivity|]. split; [vm_compute; reflexivity|].
  split; [split; [repeat constructor; eexists; reflexivity|left; eexists; reflexivity]|].
  split; [reflexivity|]. split; [reflexivity|]. split; [vm_compute; reflexivity|]. split; [vm_compute; reflexivity|]. split; vm_compute; reflexivity.
Qed.
