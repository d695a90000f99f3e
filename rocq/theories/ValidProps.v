(* C126: the self check. *)
From Verif Require Import PyProofs GeomModel GraphSpec GraphBase GraphTotal WarpCanon FinalSpec FinalProofs ValidModel GraphProps.
Local Open Scope Z_scope.

(* _validate() of t passes, and what it says when it does *)
Definition passes {V} (W : world V) o t : Prop := exists fuel, validate W o fuel t = Ok t.
Lemma list_eqb_eq {A} (eqb : A -> A -> bool) : (forall x y, eqb x y = true <-> x = y) -> forall a b, list_eqb eqb a b = true <-> a = b.
Proof.
  intros H. induction a as [|x a IH]; intros [|y b]; cbn; try (split; congruence). rewrite andb_true_iff, H, IH. split; [intros (-> & ->)|intros [=]]; auto.
Qed.
Lemma opt_eqb_eq {A} (eqb : A -> A -> bool) : (forall x y, eqb x y = true <-> x = y) -> forall a b, opt_eqb eqb a b = true <-> a = b.
Proof. intros H [x|] [y|]; cbn; try (split; congruence). rewrite H. split; congruence. Qed.
Lemma shape_eqb a b : list_eqb (opt_eqb Z.eqb) a b = true <-> a = b.
Proof. apply list_eqb_eq, opt_eqb_eq, Z.eqb_eq. Qed.
Lemma shape_refl a : list_eqb (opt_eqb Z.eqb) a a = true.
Proof. now apply shape_eqb. Qed.

(* Data given as H x W arrays, and overviews, make it fail. *)
Theorem C126_validate_refuted :
  (exists (W : world Z) t, built t /\ names t <> None /\ forall o fuel, validate W o fuel t <> Ok t) /\
  (exists (W : world Z) t a, made t /\ names t <> None /\ all_3d W t /\ finalize W t = Ok a /\
     forall fuel, validate W axis_oracle fuel t <> Ok t).
Proof.
  set (W := World (fun _ r c _ => r + c) (fun i => i =? 2) (-1) (-2) (fun q v => v + q)).
  split.
  - exists W, (img 2 3 3 ["a"%string] None). split; [split; [apply made_img; lia|exact I]|]. split; [discriminate|].
    intros o fuel. unfold validate. cbn -[optimize]. destruct (optimize o fuel _) as [(u & b)|e]; [|discriminate]. cbn -[finalize_leaf].
    cbn [bind]. change (finalize_leaf W _) with (Ok (Arr 3 3 None (fun r c b => w_pix W 2 r c b)) : result (array Z)). cbn.
    rewrite !andb_false_r. discriminate.
  - set (t := the (mkWarp_auto (the (crop_to (img 1 16 16 ["a"%string] (Some 2)) 1 5 1 5)) (aff_scale (1#2) (1#2)) (Algo true 0 0 0))).
    exists W, t. eexists. split; [|split; [|split; [|split; [vm_compute; reflexivity|]]]].
    + apply made_warp; [|reflexivity|cbn; lia]. apply (made_crop_to (img 1 16 16 ["a"%string] (Some 2)) 1 5 1 5); [|reflexivity]. apply made_img; lia.
    + discriminate.
    + vm_compute. tauto.
    + intros fuel E. unfold validate in E. change t with (Warp (the (crop_to (img 1 16 16 ["a"%string] (Some 2)) 1 5 1 5)) (aff_scale (1#2) (1#2)) (2, 2) (Algo true 0 0 0)) in E at 1.
      cbv iota in E. destruct (optimize axis_oracle fuel t) as [(u & b)|e] eqn:Eo; [|discriminate]. cbn [bind fst] in E.
      assert (Ou : optimizes axis_oracle t u) by (exists fuel, b; exact Eo).
      assert (Od : dsize u = Some (3, 3)).
      { assert (X : exists u', optimizes axis_oracle t u' /\ dsize u' = Some (3, 3)).
        { eexists. split; [exists 30%nat, false; vm_compute; reflexivity|reflexivity]. }
        destruct X as (u' & O' & D'). now rewrite (C32_result_unique _ _ _ _ Ou O'). }
      destruct (finalize W t) as [a|e]; [|discriminate]. cbn [bind] in E.
      match type of E with (if ?c then _ else _) = _ => destruct c eqn:Ec; [|discriminate] end.
      apply andb_true_iff in Ec. destruct Ec as (_ & Ec). apply shape_eqb in Ec. unfold meta_shape in Ec. rewrite Od in Ec.
      change (dsize t) with (Some (2, 2)) in Ec. cbn in Ec. congruence.
Qed.
Print Assumptions C126_validate_refuted.

(* What is missing: 2-d data, overviews and interpolating warps. *)
Theorem C126_validate_partial : forall {V} (W : world V) o t, built t -> all_3d W t -> names t <> None -> dq_once t ->
  passes W o t.
Proof.
  intros V W o t Hb H3 Hn Hd. destruct (C31_shape_is_metadata W t Hb H3) as (a & n & Ef & Ed & En & Ec & _).
  assert (Sh : list_eqb (opt_eqb Z.eqb) (array_shape a) (meta_shape t) = true).
  { apply shape_eqb. unfold array_shape, meta_shape. now rewrite Ed, En, Ec. }
  destruct Hb as (Hm & He).
  destruct (optimize_returns o t (conj Hm He) Hn Hd) as (t' & Ot).
  destruct (C28_metadata_partial o t t' Hm (exact_ov_free _ He) Ot) as (D1 & D2 & D3).
  destruct Ot as (fuel & b & Eo). exists fuel. unfold validate. rewrite Eo, Ef. cbn [bind fst]. unfold meta_shape in *. rewrite D1, D2, D3, Sh, shape_refl.
  rewrite (proj2 (opt_eqb_eq Z.eqb Z.eqb_eq _ _) eq_refl).
  rewrite (proj2 (opt_eqb_eq _ (list_eqb_eq _ String.eqb_eq) (names t) _) eq_refl). now destruct t.
Qed.
Print Assumptions C126_validate_partial.

(* and what a passed check says, of any image *)
Theorem C126_validate_sound : forall {V} (W : world V) o fuel t u, validate W o fuel t = Ok u ->
  u = t /\ exists a n, finalize W t = Ok a /\ dsize t = Some (a_w a, a_h a) /\ num_channels t = Some n /\ a_c a = Some n /\
  ((forall ps d, t <> Concat ps d) -> exists t', optimizes o t t' /\ dsize t' = dsize t /\ num_channels t' = num_channels t /\ names t' = names t).
Proof.
  intros V W o fuel t u E.
  assert (S : forall a, array_shape (V := V) a = meta_shape t -> exists n, dsize t = Some (a_w a, a_h a) /\ num_channels t = Some n /\ a_c a = Some n).
  { intros a. unfold array_shape, meta_shape. destruct (a_c a) as [c|]; [|discriminate]. destruct (dsize t) as [(w & h)|]; [|discriminate].
    cbn. intros [= -> -> <-]. eauto. }
  assert (C : (exists ps d, t = Concat ps d) \/ (forall ps d, t <> Concat ps d)) by (destruct t; eauto; right; discriminate).
  destruct C as [(ps & d & ->) | N].
  - unfold validate in E. destruct (finalize W (Concat ps d)) as [a|] eqn:Ea; [|discriminate]. cbn [bind] in E.
    destruct (list_eqb _ _ _) eqn:Ee; [|discriminate]. injection E as <-. apply shape_eqb in Ee. split; [reflexivity|].
    destruct (S a Ee) as (n & H1 & H2 & H3). exists a, n. repeat split; auto. intros N. now elim (N ps d).
  - assert (E' : (r <- optimize o fuel t ;;
      let opt := fst r in
      final <- finalize W t ;;
      if opt_eqb (list_eqb String.eqb) (names t) (names opt) &&
         opt_eqb Z.eqb (num_channels t) (num_channels opt) &&
         list_eqb (opt_eqb Z.eqb) (array_shape final) (meta_shape t) &&
         list_eqb (opt_eqb Z.eqb) (meta_shape opt) (meta_shape t)
      then Ok t else Err AssertionError) = Ok u) by (destruct t; try exact E; now elim (N parts dsize)).
    clear E. destruct (optimize o fuel t) as [(t' & b)|] eqn:Eo; [|discriminate]. cbn [bind fst] in E'.
    destruct (finalize W t) as [a|] eqn:Ea; [|discriminate]. cbn [bind] in E'.
    match type of E' with (if ?c then _ else _) = _ => destruct c eqn:Ec; [|discriminate] end. injection E' as <-.
    rewrite !andb_true_iff in Ec. destruct Ec as (((E1 & E2) & E3) & E4).
    apply (opt_eqb_eq _ (list_eqb_eq _ String.eqb_eq)) in E1. apply (opt_eqb_eq _ Z.eqb_eq) in E2. apply shape_eqb in E3. apply shape_eqb in E4.
    split; [reflexivity|]. destruct (S a E3) as (n & H1 & H2 & H3). exists a, n. repeat split; auto. intros _. exists t'. repeat split; auto.
    + now exists fuel, b.
    + unfold meta_shape in E4. destruct (dsize t) as [(w & h)|], (dsize t') as [(w' & h')|]; cbn in E4; congruence.
Qed.
Print Assumptions C126_validate_sound.

Example C126_case : built ex_tree /\ all_3d ex_world ex_tree /\ names ex_tree <> None /\ dq_once ex_tree.
Proof. split; [apply ex_built|]. split; [apply ex_3d|]. split; [discriminate|]. vm_compute. tauto. Qed.
