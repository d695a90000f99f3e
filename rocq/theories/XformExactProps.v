(* What undo_warp(squash_nans=True) does to images without missing data. *)
From Verif Require Import Py PyProofs GeomModel GeomProofs GraphModel GraphSpec GraphBase GraphOpt GraphSound GraphSize GraphProps XformModel XformSpec XformProofs XformProps.
Local Open Scope Q_scope.

(** If no leaf is missing data, asking to squash missing data leaves the undone image
    alone, whatever is removed or retained: the calls with and without squash_nans
    give the same image [u] or fail alike.  But the warp returned beside it is the
    applied transform divided by the size of u, which must not be empty. *)
Theorem C92_squash : forall {V} (c : codec V) o fuel t rm rt, made t -> nans_free t ->
  undo_warp c o fuel t rm rt true false = undo_warp c o fuel t rm rt false false /\
  (forall e, undo_warp c o fuel t rm rt false true = Err e -> undo_warp c o fuel t rm rt true true = Err e) /\
  (forall u W, undo_warp c o fuel t rm rt false true = Ok (u, W) ->
     exists T, W = Some T /\ forall w h, dsize u = Some (w, h) ->
       (w = 0%Z \/ h = 0%Z -> undo_warp c o fuel t rm rt true true = Err OtherError) /\
       (w <> 0%Z -> h <> 0%Z -> exists T', undo_warp c o fuel t rm rt true true = Ok (u, Some T') /\
          forall x y, ax T x y == inject_Z w * ax T' x y /\ ay T x y == inject_Z h * ay T' x y)).
Proof.
  intros V c o fuel t rm rt Hm Hn. destruct (made_ok _ Hm) as (Hw & _). unfold undo_warp.
  destruct (rectify_retain rm rt) as [keep|e]; cbn [bind].
  2: { split; [reflexivity|]. split; [intros e' [= <-]; reflexivity|intros u W [=]]. }
  destruct (undo_transform c t keep) as [U|e]; cbn [bind].
  2: { split; [reflexivity|]. split; [intros e' [= <-]; reflexivity|intros u W [=]]. }
  unfold mkWarp_auto. destruct (dsize t) as [sz|] eqn:Es; cbn [bind].
  2: { split; [reflexivity|]. split; [intros e' [= <-]; reflexivity|intros u W [=]]. }
  destruct (optimize o fuel (Warp t U (auto_dsize U sz) default_algo)) as [[u b]|e] eqn:Eo; cbn [rmap bind fst].
  2: { split; [reflexivity|]. split; [intros e' [= <-]; reflexivity|intros u W [=]]. }
  assert (Hww : wf (Warp t U (auto_dsize U sz) default_algo)) by (split; [exact Hw|reflexivity]).
  destruct (optimize_good o fuel RNansFree _ _ _ Hww Hn Eo) as ((_ & Hn' & _) & _).
  assert (K : forall sq, match u with
        | Leaf l =>
            if sq && is_nans l then
              cr <- mkCrop u (Some ((Some 0, Some 1), (Some 0, Some 1)))%Z None ;;
              rmap fst (optimize o fuel cr)
            else Ok u
        | _ => Ok u
        end = Ok u).
  { intros sq. destruct u; try reflexivity. cbn in Hn'. unfold is_nans. rewrite Hn', andb_false_r. reflexivity. }
  pose proof (K true) as K1. pose proof (K false) as K0. cbn [andb bind] in K0, K1 |- *. rewrite K1, K0. cbn [bind]. split; [reflexivity|]. split; [intros e [=]|].
  intros u0 W [= <- <-]. exists U. split; [reflexivity|]. intros w h ->. split.
  - intros Hz. replace ((w =? 0) || (h =? 0))%Z with true by (symmetry; apply orb_true_iff; rewrite !Z.eqb_eq; exact Hz). reflexivity.
  - intros Nw Nh. replace ((w =? 0) || (h =? 0))%Z with false by (symmetry; apply orb_false_iff; rewrite !Z.eqb_neq; now split).
    cbn [bind]. eexists. split; [reflexivity|]. intros x y.
    assert (~ inject_Z w == 0) by (intros X; apply Nw; unfold Qeq in X; cbn in X; lia).
    assert (~ inject_Z h == 0) by (intros X; apply Nh; unfold Qeq in X; cbn in X; lia).
    rewrite ax_mul, ay_mul, ax_scale, ay_scale. split; field; assumption.
Qed.
Print Assumptions C92_squash.

(** The case that shows C92 to be false of the code: a 6 x 5 overview of a crop. *)
Example C92_squash_case : exists u T T', made xf_b /\ nans_free xf_b /\
  undo_warp pair_codec axis_oracle 30 xf_b None None false true = Ok (u, Some T) /\
  undo_warp pair_codec axis_oracle 30 xf_b None None true true = Ok (u, Some T') /\
  dsize u = Some (14, 14)%Z /\ ax T 3 2 == 10 /\ ax T' 3 2 == 10 / 14.
Proof.
  eexists _, _, _. split.
  { apply (made_overview xf_crop 1); [apply xf_crop_made|reflexivity]. }
  split; [reflexivity|]. split; [vm_compute; reflexivity|]. split; [vm_compute; reflexivity|].
  split; [vm_compute; reflexivity|]. split; vm_compute; reflexivity.
Qed.
