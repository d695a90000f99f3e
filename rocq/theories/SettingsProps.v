(* The settings of warps: interpolation, antialias, border value, backend. *)
From Verif Require Import Py PyProofs GeomModel GeomProofs GraphModel GraphSpec GraphBase GraphTake GraphOpt GraphMain GraphSound GraphSize GraphTotal WarpTotal GraphProps.
Local Open Scope Z_scope.

(** C130: "when all warps of an image agree on their settings, so do those of the
    optimized image". *)

(* every warp of a tree has these settings *)
Fixpoint all_warps (P : algo -> Prop) (t : node) : Prop :=
  match t with
  | Leaf _ => True
  | Concat ps _ => forall_parts (all_warps P) ps
  | Crop s _ _ _ _ _ _ | Dequant s _ _ | Overview s _ _ => all_warps P s
  | Warp s _ _ al => P al /\ all_warps P s
  end.

(* the settings other than the backend and the tolerance of no-ops *)
Definition sampling (al : algo) : bool * Z := (al_nearest al, al_tag al).

Lemma all_warps_free P t : ov_free t -> all_warps P t <-> warps_all (fun _ al => P al) t.
Proof.
  assert (L : forall t, ov_less t -> ov_free t).
  { intros t0. induction t0 using node_ind'; cbn; auto. rewrite !forall_parts_Forall, !Forall_forall in *. auto. }
  induction t as [l|ps d IH|s ys xs ci d nm nc IH|s M d al IH|s q d IH|s k d IH] using node_ind'; cbn; intros Ho; try tauto.
  - rewrite !forall_parts_Forall in *. rewrite !Forall_forall in *. split; intros H p Hp; apply (IH p Hp); auto.
  - specialize (IH (L _ Ho)). tauto.
Qed.

Definition agree : algo := Algo true 0 3 7.

Theorem C130_settings_refuted :
  (* the overview of an image enlarged with nearest interpolation is linear *)
  (exists t t', made t /\ all_warps (eq agree) t /\ optimizes axis_oracle t t' /\
     ~ all_warps (fun al => al_nearest al = true) t' /\ ~ all_warps (fun al => al_tag al = 3) t') /\
  (* two warps become one that forgot the backend *)
  (exists t t', made t /\ ov_free t /\ all_warps (eq agree) t /\ optimizes axis_oracle t t' /\
     ~ all_warps (fun al => al_backend al = 7) t').
Proof.
  split.
  - set (w := Warp (img 1 16 16 ["a"%string] (Some 2)) (aff_scale 3 3) (48, 48) agree).
    exists (the (mkOverview w 1)), (the (rmap fst (optimize axis_oracle 12 (the (mkOverview w 1))))).
    split; [|split; [|split; [|]]].
    + apply (made_overview w 1); [|reflexivity]. apply made_warp; [|reflexivity|cbn; lia]. apply made_img; lia.
    + cbn. auto.
    + exists 12%nat, false. vm_compute. reflexivity.
    + split; vm_compute; intuition discriminate.
  - set (i := img 1 16 16 ["a"%string] None).
    exists (Warp (Warp i (aff_scale 3 3) (48, 48) agree) (aff_scale 3 3) (144, 144) agree),
      (the (rmap fst (optimize axis_oracle 12 (Warp (Warp i (aff_scale 3 3) (48, 48) agree) (aff_scale 3 3) (144, 144) agree)))).
    split; [|split; [|split; [|split]]].
    + apply made_warp; [|reflexivity|cbn; lia]. apply made_warp; [|reflexivity|cbn; lia]. apply made_img; lia.
    + vm_compute. tauto.
    + cbn. auto.
    + exists 12%nat, false. vm_compute. reflexivity.
    + vm_compute. intuition discriminate.
Qed.
Print Assumptions C130_settings_refuted.

(** Without overviews to use, every warp of the optimized image is set like one of
    the image, but for the backend: this for every set P of settings. *)
Theorem C130_settings_partial : forall o (P : bool * Z -> Prop) t t', made t -> ov_free t -> optimizes o t t' ->
  all_warps (fun al => P (sampling al)) t -> all_warps (fun al => P (sampling al)) t'.
Proof.
  intros o P t t' Hm Ho H Ha. destruct (made_ok _ Hm) as [Hw Ht]. pose proof H as (f & b & H0).
  destruct (optimize_kept o f t t' b Hw Ho Ht H0) as (_ & _ & Hk).
  destruct (opts_good o ROvFree t t' Hw Ho H) as ((_ & Ho' & _) & _).
  apply all_warps_free; [exact Ho'|]. apply (keeps_all _ _ Hk); [|now apply all_warps_free].
  split.
  - intros M al s ys xs ci cd c T H1 _ _. exact H1.
  - intros M al M1 al1 H1 _. exact H1.
Qed.
Print Assumptions C130_settings_partial.

Example C130_case : exists t t', made t /\ ov_free t /\ optimizes axis_oracle t t' /\ t' <> t /\
  all_warps (fun al => sampling al = (true, 3)) t /\ all_warps (fun al => sampling al = (true, 3)) t' /\
  ~ all_warps (fun _ => False) t'.
Proof.
  set (w := Warp (Warp (the (crop_to (img 1 16 16 ["a"%string] None) 1 9 1 9)) (aff_scale 3 3) (48, 48) agree) (aff_scale 3 3) (144, 144) agree).
  exists w, (the (rmap fst (optimize axis_oracle 12 w))).
  split; [|split; [vm_compute; tauto|split; [exists 12%nat, false; vm_compute; reflexivity|]]].
  - apply made_warp; [|reflexivity|cbn; lia]. apply made_warp; [|reflexivity|cbn; lia].
    eapply (made_crop_to (img 1 16 16 ["a"%string] None) 1 9 1 9); [|reflexivity]. apply made_img; lia.
  - vm_compute. intuition discriminate.
Qed.
