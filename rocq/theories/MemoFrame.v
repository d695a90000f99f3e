(* What optimize() writes: only the size of dequantization nodes. *)
From Verif Require Import Py PyProofs GeomModel GraphModel MemoModel.
From Coq Require Import Lia.

(** ** Running a program from a world *)

Section Run.
Context {W : Type} (st : W -> store) (le : W -> W -> Prop) (inv : W -> Prop).
Hypothesis le_refl : forall w, le w w.
Hypothesis le_trans : forall a b c, le a b -> le b c -> le a c.

Definition runs {A} (c : act A) (Q : W -> A -> Prop) (w : W) : Prop :=
  forall a s', c (st w) = Ok (a, s') ->
  exists w', st w' = s' /\ le w w' /\ inv w' /\ Q w' a.

Lemma runs_ret {A} (a : A) (Q : W -> A -> Prop) w : inv w -> Q w a -> runs (ret a) Q w.
Proof. intros I H a' s' E. injection E as <- <-. eauto. Qed.

Lemma runs_raise {A} e (Q : W -> A -> Prop) w : runs (raise e) Q w.
Proof. intros a s' E. discriminate. Qed.

Lemma runs_bind {A B} (c : act A) (k : A -> act B) Q R w :
  runs c Q w -> (forall w' a, le w w' -> inv w' -> Q w' a -> runs (k a) R w') ->
  runs (andthen c k) R w.
Proof.
  intros Hc Hk b s' E. unfold andthen in E. destruct (c (st w)) as [[a s1]|] eqn:Ec; [|discriminate].
  destruct (Hc a s1 Ec) as (w1 & E1 & L1 & I1 & Q1). subst s1.
  destruct (Hk w1 a L1 I1 Q1 b s' E) as (w2 & E2 & L2 & I2 & Q2). eauto 8.
Qed.

Lemma runs_lift {A} (r : result A) (Q : W -> A -> Prop) w : inv w ->
  (forall a, r = Ok a -> Q w a) -> runs (lift r) Q w.
Proof.
  intros I H a s' E. unfold lift in E. destruct r as [a0|]; [|discriminate].
  cbn in E. injection E as <- <-. exists w. auto.
Qed.

Lemma runs_weaken {A} (c : act A) (Q R : W -> A -> Prop) w :
  runs c Q w -> (forall w' a, le w w' -> Q w' a -> R w' a) -> runs c R w.
Proof. intros H HQ a s' E. destruct (H a s' E) as (w' & E' & L & I & Q'). eauto 8. Qed.

Lemma runs_mapA {A B} (f : A -> act B) (P : W -> A -> Prop) (Q : W -> A -> B -> Prop) :
  (forall w w' a, le w w' -> P w a -> P w' a) ->
  (forall w w' a b, le w w' -> Q w a b -> Q w' a b) ->
  (forall w a, inv w -> P w a -> runs (f a) (fun w' b => Q w' a b) w) ->
  forall l w, inv w -> Forall (P w) l -> runs (mapA f l) (fun w' bs => Forall2 (Q w') l bs) w.
Proof.
  intros HP HQ Hf. induction l as [|a l IH]; intros w I F; cbn [mapA].
  - now apply runs_ret.
  - apply Forall_cons_iff in F as [Pa F].
    eapply runs_bind; [apply Hf; assumption|]. intros w1 b L1 I1 Q1.
    eapply runs_bind; [apply IH; [exact I1|]|].
    { eapply Forall_impl; [|exact F]. intros a0. now apply HP. }
    intros w2 bs L2 I2 Q2. apply runs_ret; [exact I2|]. constructor; eauto.
Qed.

End Run.

(** ** Worlds: a store, and for every meta dict whether it belongs to a dequantization *)

Record world := World { ty : nat -> bool; st : store }.

(* every identity and dict in [x] is in use, and dicts are of the stated kind *)
Fixpoint fits (w : world) (x : obj) : Prop :=
  (oid x < next (st w))%nat /\
  match x with
  | OLeaf _ _ => True
  | OConcat _ ps _ => (fix go ps := match ps with [] => True | p :: r => fits w p /\ go r end) ps
  | OCrop _ m s _ _ _ _ _ => (m < next (st w))%nat /\ ty w m = false /\ fits w s
  | OWarp _ m s _ _ => (m < next (st w))%nat /\ ty w m = false /\ fits w s
  | ODequant _ m s _ => (m < next (st w))%nat /\ ty w m = true /\ fits w s
  | OOverview _ m s _ => (m < next (st w))%nat /\ ty w m = false /\ fits w s
  end.

Lemma fits_concat w i ps d :
  fits w (OConcat i ps d) <-> (i < next (st w))%nat /\ Forall (fits w) ps.
Proof.
  cbn [fits oid]. apply and_iff_compat_l.
  induction ps as [|p ps IH]; [split; constructor|]. rewrite Forall_cons_iff, <- IH. reflexivity.
Qed.

Lemma obj_ind' (P : obj -> Prop) :
  (forall i l, P (OLeaf i l)) ->
  (forall i ps d, Forall P ps -> P (OConcat i ps d)) ->
  (forall i m s ys xs ci nm nc, P s -> P (OCrop i m s ys xs ci nm nc)) ->
  (forall i m s M al, P s -> P (OWarp i m s M al)) ->
  (forall i m s q, P s -> P (ODequant i m s q)) ->
  (forall i m s k, P s -> P (OOverview i m s k)) ->
  forall x, P x.
Proof.
  intros H1 H2 H3 H4 H5 H6. fix IH 1. intros [i l|i ps d|i m s ys xs ci nm nc|i m s M al|i m s q|i m s k];
    [apply H1| |apply H3, IH|apply H4, IH|apply H5, IH|apply H6, IH].
  apply H2. induction ps as [|p ps IHp]; constructor; [apply IH|exact IHp].
Qed.

Definition le (w w' : world) : Prop :=
  (next (st w) <= next (st w'))%nat /\
  forall m, (m < next (st w))%nat ->
    ty w' m = ty w m /\ (ty w m = false -> sizes (st w') m = sizes (st w) m).

Lemma le_refl w : le w w.
Proof. split; auto. Qed.

Lemma le_trans a b c : le a b -> le b c -> le a c.
Proof.
  intros [H1 H2] [G1 G2]. split; [lia|]. intros m Hm. destruct (H2 m Hm) as [A B].
  destruct (G2 m ltac:(lia)) as [C D]. split; [congruence|]. intros E. rewrite D by congruence. auto.
Qed.

Lemma fits_le w w' x : le w w' -> fits w x -> fits w' x.
Proof.
  intros [H1 H2]. induction x as [i l|i ps d IH|i m s ys xs ci nm nc IH|i m s M al IH|i m s q IH|i m s k IH]
    using obj_ind'.
  - cbn. intros [? _]. split; [lia|exact I].
  - rewrite !fits_concat. intros [Hi F]. split; [lia|]. rewrite Forall_forall in *. auto.
  - cbn. intros (? & ? & ? & ?). destruct (H2 m) as [E _]; [lia|]. rewrite E. repeat split; auto; lia.
  - cbn. intros (? & ? & ? & ?). destruct (H2 m) as [E _]; [lia|]. rewrite E. repeat split; auto; lia.
  - cbn. intros (? & ? & ? & ?). destruct (H2 m) as [E _]; [lia|]. rewrite E. repeat split; auto; lia.
  - cbn. intros (? & ? & ? & ?). destruct (H2 m) as [E _]; [lia|]. rewrite E. repeat split; auto; lia.
Qed.

(* no crop directly over a dequantization on the way down to an overview *)
Definition not_deq (x : obj) : Prop := match x with ODequant _ _ _ _ => False | _ => True end.
Fixpoint chain_ok (x : obj) : Prop :=
  match x with
  | OLeaf _ _ | OConcat _ _ _ => True
  | OCrop _ _ s _ _ _ _ _ => not_deq s /\ chain_ok s
  | OWarp _ _ s _ _ => chain_ok s
  | ODequant _ _ s _ => chain_ok s
  | OOverview _ _ s _ => not_deq s /\ chain_ok s
  end.

Definition fine (w : world) (x : obj) : Prop := fits w x /\ chain_ok x.
Lemma fine_le w w' x : le w w' -> fine w x -> fine w' x.
Proof. intros L [F C]. split; [eapply fits_le; eassumption|exact C]. Qed.

Definition inv (w : world) : Prop := Forall (fun e => fine w (snd e)) (memo (st w)).

Notation run := (runs st le inv).

(** ** Allocation *)

(* a dict of a given kind *)
Definition owns (w : world) (b : bool) (m : nat) : Prop := (m < next (st w))%nat /\ ty w m = b.
Lemma owns_le w w' b m : le w w' -> owns w b m -> owns w' b m.
Proof. intros [H1 H2] [Hm E]. destruct (H2 m Hm) as [A _]. split; [lia|congruence]. Qed.

Lemma inv_le w w' : le w w' -> memo (st w') = memo (st w) -> inv w -> inv w'.
Proof.
  intros L E I. unfold inv in *. rewrite E. eapply Forall_impl; [|exact I].
  intros e. now apply fine_le.
Qed.

Lemma run_alloc w (f : nat -> nat -> obj) d (b : bool) : inv w ->
  run (alloc f d) (fun w' y => exists i, y = f i (S i) /\ (i < next (st w'))%nat /\ owns w' b (S i)) w.
Proof.
  intros I a s' E. unfold alloc in E. injection E as <- <-.
  set (n := next (st w)).
  set (w' := World (fun m => if Nat.eqb m (S n) then b else ty w m)
               (Store (S (S n)) (upd (sizes (st w)) (S n) d) (memo (st w)))).
  assert (L : le w w').
  { split; [cbn; lia|]. intros m Hm. cbn. unfold upd. fold n in Hm.
    destruct (Nat.eqb_spec m (S n)); [lia|]. auto. }
  exists w'. split; [reflexivity|]. split; [exact L|]. split; [eapply inv_le; eauto|].
  exists n. split; [reflexivity|]. cbn. split; [lia|]. split; cbn; [lia|]. now rewrite Nat.eqb_refl.
Qed.

Lemma run_clone w (f : nat -> obj) : inv w ->
  run (clone f) (fun w' y => exists i, y = f i /\ (i < next (st w'))%nat) w.
Proof.
  intros I a s' E. unfold clone in E. injection E as <- <-.
  set (n := next (st w)).
  set (w' := World (ty w) (Store (S n) (sizes (st w)) (memo (st w)))).
  assert (L : le w w') by (split; [cbn; lia|]; intros m Hm; cbn; auto).
  exists w'. split; [reflexivity|]. split; [exact L|]. split; [eapply inv_le; eauto|].
  exists n. split; [reflexivity|]. cbn. lia.
Qed.

Lemma run_write w m d : inv w -> owns w true m -> run (write m d) (fun _ _ => True) w.
Proof.
  intros I [Hm Ht] a s' E. unfold write in E. injection E as <- <-.
  set (w' := World (ty w) (Store (next (st w)) (upd (sizes (st w)) m d) (memo (st w)))).
  assert (L : le w w').
  { split; [cbn; lia|]. intros m' Hm'. cbn. split; [reflexivity|]. intros Hf. unfold upd.
    destruct (Nat.eqb_spec m' m); [congruence|reflexivity]. }
  exists w'. split; [reflexivity|]. split; [exact L|]. split; [eapply inv_le; eauto|trivial].
Qed.

Lemma run_look {A} (f : node -> A) x w : inv w -> run (look f x) (fun _ _ => True) w.
Proof. intros I a s' E. injection E as <- <-. exists w. auto using le_refl. Qed.
Lemma run_looks xs w : inv w -> run (looks xs) (fun _ _ => True) w.
Proof. intros I a s' E. injection E as <- <-. exists w. auto using le_refl. Qed.
Lemma run_dict m w : inv w -> run (dict m) (fun _ _ => True) w.
Proof. intros I a s' E. injection E as <- <-. exists w. auto using le_refl. Qed.
Lemma run_tryf {A} (f : node -> result A) x w : inv w -> run (tryf f x) (fun _ _ => True) w.
Proof.
  intros I a s' E. unfold tryf in E. destruct (f (view (sizes (st w)) x)); [|discriminate].
  cbn in E. injection E as <- <-. exists w. auto using le_refl.
Qed.
Lemma run_lift {A} (r : result A) w : inv w -> run (lift r) (fun _ a => r = Ok a) w.
Proof. intros I. apply runs_lift; auto using le_refl. Qed.
Lemma run_ret {A} (a : A) (Q : world -> A -> Prop) w : inv w -> Q w a -> run (ret a) Q w.
Proof. intros. apply runs_ret; auto using le_refl. Qed.
Lemma run_bind {A B} (c : act A) (k : A -> act B) Q R w :
  run c Q w -> (forall w' a, le w w' -> inv w' -> Q w' a -> run (k a) R w') -> run (andthen c k) R w.
Proof. apply runs_bind. exact le_trans. Qed.
Lemma run_raise {A} e (Q : world -> A -> Prop) w : run (raise e) Q w.
Proof. apply runs_raise. Qed.
Lemma run_weaken {A} (c : act A) (Q R : world -> A -> Prop) w :
  run c Q w -> (forall w' a, le w w' -> Q w' a -> R w' a) -> run c R w.
Proof. apply runs_weaken. Qed.
Lemma run_mapA {A B} (f : A -> act B) (P : world -> A -> Prop) (Q : world -> A -> B -> Prop) :
  (forall w w' a, le w w' -> P w a -> P w' a) ->
  (forall w w' a b, le w w' -> Q w a b -> Q w' a b) ->
  (forall w a, inv w -> P w a -> run (f a) (fun w' b => Q w' a b) w) ->
  forall l w, inv w -> Forall (P w) l -> run (mapA f l) (fun w' bs => Forall2 (Q w') l bs) w.
Proof. apply runs_mapA; [exact le_refl|exact le_trans]. Qed.

(* carry facts to the current world *)
Ltac up L :=
  repeat match goal with
  | H : fits ?w ?x |- _ => match type of L with le w _ => apply (fits_le _ _ _ L) in H end
  | H : owns ?w ?b ?m |- _ => match type of L with le w _ => apply (owns_le _ _ _ _ L) in H end
  | H : Forall (fits ?w) ?l |- _ =>
      match type of L with le w _ =>
        apply (Forall_impl (fits _) (fun a => fits_le _ _ a L)) in H end
  end.
Ltac adv lem w a H :=
  eapply run_bind; [eapply lem; eauto|]; cbv beta;
  let L := fresh "L" in let I := fresh "I" in intros w a L I H; up L.

(** ** Constructors *)

Definition is_crop (x : obj) (w : world) (y : obj) : Prop :=
  fits w y /\ exists i m ys xs ci nm nc, y = OCrop i m x ys xs ci nm nc.
Definition is_warp (x : obj) (w : world) (y : obj) : Prop :=
  fits w y /\ exists i m M al, y = OWarp i m x M al.
Definition is_deq (x : obj) (w : world) (y : obj) : Prop :=
  fits w y /\ exists i m q, y = ODequant i m x q.
Definition is_ov (x : obj) (w : world) (y : obj) : Prop :=
  fits w y /\ exists i m k, y = OOverview i m x k.

Lemma owns_lt w b m : owns w b m -> (m < next (st w))%nat /\ ty w m = b.
Proof. auto. Qed.

Lemma run_crop x sl ci w : inv w -> fits w x -> run (h_crop x sl ci) (is_crop x) w.
Proof.
  intros I F. unfold h_crop. adv @run_tryf w1 n H. destruct n; try apply run_raise.
  eapply run_weaken; [apply (run_alloc w1 _ _ false); assumption|]. cbv beta.
  intros w2 y L2 (i & -> & Hi & Ho). up L2. split; [|eauto 10]. cbn. now destruct Ho.
Qed.

Lemma run_warp x M d al w : inv w -> fits w x -> run (h_warp x M d al) (is_warp x) w.
Proof.
  intros I F. unfold h_warp.
  eapply run_weaken; [apply (run_alloc w _ _ false); assumption|]. cbv beta.
  intros w2 y L2 (i & -> & Hi & Ho). up L2. split; [|eauto 10]. cbn. now destruct Ho.
Qed.

Lemma run_warp_auto x M al w : inv w -> fits w x -> run (h_warp_auto x M al) (is_warp x) w.
Proof.
  intros I F. unfold h_warp_auto. adv @run_tryf w1 n H. destruct n; try apply run_raise.
  now apply run_warp.
Qed.

Lemma run_dequant x q w : inv w -> fits w x -> run (h_dequant x q) (is_deq x) w.
Proof.
  intros I F. unfold h_dequant. adv @run_look w1 n H.
  eapply run_weaken; [apply (run_alloc w1 _ _ true); assumption|]. cbv beta.
  intros w2 y L2 (i & -> & Hi & Ho). up L2. split; [|eauto 10]. cbn. now destruct Ho.
Qed.

Lemma run_overview x k w : inv w -> fits w x -> run (h_overview x k) (is_ov x) w.
Proof.
  intros I F. unfold h_overview. adv @run_tryf w1 n H. destruct n; try apply run_raise.
  eapply run_weaken; [apply (run_alloc w1 _ _ false); assumption|]. cbv beta.
  intros w2 y L2 (i & -> & Hi & Ho). up L2. split; [|eauto 10]. cbn. now destruct Ho.
Qed.

Definition opt_concat (w : world) (c : option obj) : Prop :=
  match c with Some c => fits w c /\ exists i ps d, c = OConcat i ps d | None => True end.

Lemma run_concat ps w : inv w -> Forall (fits w) ps -> run (h_concat ps) opt_concat w.
Proof.
  intros I F. unfold h_concat. adv @run_looks w1 ts H.
  destruct (mkConcat ts) as [[| ? ? | | | |]|]; try (apply run_ret; [assumption|exact Logic.I]).
  adv @run_clone w2 y Hy. destruct Hy as (i & -> & Hi). apply run_ret; [assumption|].
  split; [|eauto]. apply fits_concat. auto.
Qed.

Lemma run_leaf t w : inv w -> run (h_leaf t) (fun w y => fits w y /\ exists i l, y = OLeaf i l) w.
Proof.
  intros I. unfold h_leaf. destruct t; try apply run_raise.
  eapply run_weaken; [now apply run_clone|]. cbv beta. intros w1 y L (i & -> & Hi).
  split; [split; [exact Hi|exact Logic.I]|eauto].
Qed.

Lemma run_padded_crop x ys xs w : inv w -> fits w x ->
  run (h_padded_crop x ys xs) (fun w y => fits w y) w.
Proof.
  intros I F. unfold h_padded_crop. adv @run_look w1 d H. destruct d as [sz|]; [|apply run_raise].
  adv @run_lift w2 p Hp. destruct p as [[dy dx] tf]. adv run_crop w3 c Hc. destruct Hc as [Hc _].
  destruct tf as [[T d]|]; [|now apply run_ret].
  eapply run_weaken; [now apply run_warp|]. intros w4 y L4 [Hy _]. exact Hy.
Qed.

Lemma Forall2_fits_r {A} w (l : list A) ys (Q : A -> obj -> Prop) :
  Forall2 (fun a y => fits w y /\ Q a y) l ys -> Forall (fits w) ys.
Proof. induction 1 as [|a y l ys [H _] F IH]; constructor; auto. Qed.

Lemma run_push x w : inv w -> fits w x -> run (h_push_under x) opt_concat w.
Proof.
  intros I F. unfold h_push_under.
  assert (HP : forall w w' a, le w w' -> fits w a -> fits w' a) by (intros; eapply fits_le; eassumption).
  assert (HQ : forall w w' (a : obj) b, le w w' -> fits w b /\ True -> fits w' b /\ True)
    by (intros w0 w' a b L [H _]; split; [eapply fits_le; eassumption|exact Logic.I]).
  destruct x as [i l|i ps d|i m s ys xs ci nm nc|i m s M al|i m s q|i m s k];
    try (apply run_ret; [assumption|exact Logic.I]);
    (destruct s as [| i0 ps d0 | | | | ]; try (apply run_ret; [assumption|exact Logic.I]));
    (assert (Fp : Forall (fits w) ps) by
      (cbn [fits] in F; destruct F as (_ & _ & _ & F); apply (fits_concat w i0 ps d0); exact F)).
  - eapply run_bind.
    + eapply run_mapA with (Q := fun w a b => fits w b /\ True); [exact HP|exact HQ| |exact I|exact Fp].
      intros w0 a I0 F0. eapply run_weaken; [now apply run_crop|]. intros w1 y L1 [Hy _]. auto.
    + intros w1 qs L1 I1 Hq. apply run_concat; [assumption|]. eapply Forall2_fits_r; exact Hq.
  - adv @run_dict w1 d Hd. eapply run_bind.
    + eapply run_mapA with (Q := fun w a b => fits w b /\ True); [exact HP|exact HQ| |eassumption|exact Fp].
      intros w0 a I1 F0. eapply run_weaken; [now apply run_warp|]. intros w2 y L1 [Hy _]. auto.
    + intros w2 qs L2 I2 Hq. apply run_concat; [assumption|]. eapply Forall2_fits_r; exact Hq.
  - eapply run_bind.
    + eapply run_mapA with (Q := fun w a b => fits w b /\ True); [exact HP|exact HQ| |exact I|exact Fp].
      intros w0 a I0 F0. eapply run_weaken; [now apply run_dequant|]. intros w1 y L1 [Hy _]. auto.
    + intros w1 qs L1 I1 Hq. apply run_concat; [assumption|]. eapply Forall2_fits_r; exact Hq.
  - eapply run_bind.
    + eapply run_mapA with (Q := fun w a b => fits w b /\ True); [exact HP|exact HQ| |exact I|exact Fp].
      intros w0 a I0 F0. eapply run_weaken; [now apply run_overview|]. intros w1 y L1 [Hy _]. auto.
    + intros w1 qs L1 I1 Hq. apply run_concat; [assumption|]. eapply Forall2_fits_r; exact Hq.
Qed.

Lemma run_take x : forall idxs w, inv w -> fits w x -> run (h_take x idxs) (fun w y => fits w y) w.
Proof.
  induction x as [i l|i ps d IH|i m s ys xs ci nm nc IH|i m s M al IH|i m s q IH|i m s k IH] using obj_ind';
    intros idxs w Iw F;
    try (eapply run_weaken; [apply run_crop; assumption|]; intros w1 y L1 [Hy _]; exact Hy).
  cbn [h_take]. adv @run_look w1 nm Hn. adv @run_looks w2 ts Ht.
  destruct nm as [nm|]; [|apply run_raise].
  destruct (known_all (map num_channels ts)) as [szs|]; [|apply run_raise].
  adv @run_lift w3 wh Hwh. apply fits_concat in F as [Hi Fp].
  eapply run_bind.
  - eapply run_mapA with (P := fun w (_ : nat * list Z) => Forall (fits w) ps)
                         (Q := fun w (_ : nat * list Z) y => fits w y /\ True).
    + intros u u' _ Lu Hf. eapply Forall_impl; [|exact Hf]. intros a. now apply fits_le.
    + intros u u' _ b Lu [Hb _]. split; [eapply fits_le; eassumption|exact Logic.I].
    + intros u seg Iu Fu. unfold h_component. adv @run_lift u1 pt Hpt.
      assert (In (fst pt) ps /\ snd pt = h_take (fst pt)) as [Hin Hsnd].
      { unfold nth_result in Hpt. destruct (nth_error _ _) as [pt'|] eqn:En; [|discriminate].
        injection Hpt as ->. apply nth_error_In, in_map_iff in En as (p & <- & Hp). auto. }
      assert (Fx : fits u1 (fst pt)).
      { rewrite Forall_forall in Fu. auto. }
      adv @run_look u2 n Hnn. destruct n as [n|]; [|apply run_raise].
      destruct (list_Z_eqb _ _); [apply run_ret; auto|]. rewrite Hsnd.
      rewrite Forall_forall in IH. eapply run_weaken; [apply IH; auto|]. auto.
    + eassumption.
    + apply Forall_forall. auto.
  - intros w4 comps L4 I4 Hc. up L4. apply Forall2_fits_r in Hc.
    adv run_concat w5 c Hcc. destruct c as [c|]; [|apply run_raise]. apply run_ret; [assumption|].
    apply Hcc.
Qed.

(** ** Rewrite rules *)

Lemma run_warp_after_crop s M ys xs ci cd w : inv w -> fits w s ->
  run (h_warp_after_crop s M ys xs ci cd)
      (fun w r => match r with Some (c, _) => is_crop s w c | None => True end) w.
Proof.
  intros I F. unfold h_warp_after_crop. adv @run_tryf w1 r H.
  destruct r as [[c T]|]; [|apply run_ret; auto]. destruct c; try apply run_raise.
  eapply run_bind; [apply (run_alloc w1 _ _ false); assumption|]. cbv beta.
  intros w2 y L2 I2 (i & -> & Hi & Ho). up L2. apply run_ret; [assumption|].
  split; [|eauto 10]. cbn. now destruct Ho.
Qed.

Lemma run_fuse_crops s ys1 xs1 ci1 ys xs ci w : inv w -> fits w s ->
  run (h_fuse_crops s ys1 xs1 ci1 ys xs ci) (is_crop s) w.
Proof. intros I F. unfold h_fuse_crops. adv @run_lift w1 nci H. now apply run_crop. Qed.

Lemma run_crop_after_overview s ys xs ci k w : inv w -> fits w s ->
  run (h_crop_after_overview s ys xs ci k) (fun w y => fits w y) w.
Proof.
  intros I F. unfold h_crop_after_overview. adv run_overview w1 v Hv. destruct Hv as [Hv _].
  destruct (overview_crop_axis k xs) as [qx ox]. destruct (overview_crop_axis k ys) as [qy oy].
  adv run_crop w2 c Hc. destruct Hc as [Hc _]. cbv zeta. destruct (is_identity _); [now apply run_ret|].
  eapply run_weaken; [now apply run_warp_auto|]. intros w4 y L4 [Hy _]. exact Hy.
Qed.

Lemma run_warp_after_overview s B k w : inv w -> fits w s ->
  run (h_warp_after_overview s B k) (fun w y => fits w y) w.
Proof.
  intros I F. unfold h_warp_after_overview. adv @run_lift w0 C HC. adv run_overview w1 v Hv. destruct Hv as [Hv _].
  eapply run_weaken; [now apply run_warp_auto|]. intros w4 y L4 [Hy _]. exact Hy.
Qed.

Lemma run_fresh_context {A} (c : act A) (Q : world -> A -> Prop) w : inv w ->
  (forall u, inv u -> next (st u) = next (st w) -> sizes (st u) = sizes (st w) -> ty u = ty w -> run c Q u) ->
  (forall u u' a, next (st u) = next (st u') -> ty u = ty u' -> sizes (st u) = sizes (st u') -> Q u a -> Q u' a) ->
  run (fresh_context c) Q w.
Proof.
  intros Iw Hc HQ a s' E. unfold fresh_context in E.
  set (u := World (ty w) (Store (next (st w)) (sizes (st w)) [])).
  change (Store (next (st w)) (sizes (st w)) []) with (st u) in E.
  destruct (c (st u)) as [[a' s1]|] eqn:Ec; [|discriminate]. injection E as <- <-.
  destruct (Hc u (Forall_nil _) eq_refl eq_refl eq_refl a' s1 Ec) as (u' & E' & L' & I' & Q').
  subst s1. exists (World (ty u') (Store (next (st u')) (sizes (st u')) (memo (st w)))).
  assert (L : le w (World (ty u') (Store (next (st u')) (sizes (st u')) (memo (st w))))) by exact L'.
  split; [reflexivity|]. split; [exact L|]. split; [eapply inv_le; eauto|]. eapply HQ; [| | |exact Q']; reflexivity.
Qed.

Lemma fits_eq u u' x : next (st u) = next (st u') -> ty u = ty u' -> fits u x -> fits u' x.
Proof.
  intros E1 E2. induction x as [i l|i ps d IH|i m s ys xs ci nm nc IH|i m s M al IH|i m s q IH|i m s k IH]
    using obj_ind'; try (cbn [fits oid]; rewrite ?E1, ?E2; tauto).
  rewrite !fits_concat, E1. intros [Hi F]. split; [exact Hi|]. rewrite Forall_forall in *. auto.
Qed.

Section Opt.
Variable opt : obj -> act obj.
Hypothesis Hopt : forall x w, inv w -> fits w x -> run (opt x) fine w.

Lemma run_split o s M d al w : inv w -> fits w s ->
  run (h_split o opt s M d al) (fun w r => match r with Some n => fits w n | None => True end) w.
Proof.
  intros I F. unfold h_split. adv @run_tryf w1 no Hno. destruct no as [n|]; [|now apply run_ret].
  destruct (n =? 0)%Z; [now apply run_ret|]. adv @run_lift w2 lv Hlv.
  destruct lv as [poss|]; [|now apply run_ret]. cbv zeta. destruct (Z.min n poss =? 0)%Z; [now apply run_ret|].
  adv @run_lift w3 R HR. adv run_overview w4 v Hv. destruct Hv as [Hv _].
  destruct (is_identity R).
  - adv @run_look w5 od Hod. destruct (opt_size_eqb od (Some d)); [now apply run_ret|].
    adv run_padded_crop w6 c Hc. eapply run_bind.
    + apply run_fresh_context with (Q := fun w y => fits w y); [assumption| |].
      * intros u Iu E1 E2 E3. eapply run_weaken; [apply Hopt; [exact Iu|]|].
        -- eapply fits_eq; [| |exact Hc]; auto.
        -- intros u' y _ [Hy _]. exact Hy.
      * intros u u' a E1 E2 _. now apply fits_eq.
    + intros w7 y L7 I7 Hy. now apply run_ret.
  - adv run_warp w5 y Hy. destruct Hy as [Hy _]. now apply run_ret.
Qed.

Lemma run_opt_sub x w : inv w -> fits w x -> run (h_opt_sub opt x) (fun w y => fits w y) w.
Proof.
  intros I F. unfold h_opt_sub. destruct x as [i l|i ps d|i m s ys xs ci nm nc|i m s M al|i m s q|i m s k];
    try apply run_raise; cbn [fits oid] in F; destruct F as (Hi & Hm & Ht & Fs);
    (assert (Ho : owns w (ty w m) m) by (split; auto)); rewrite Ht in Ho; clear Hm Ht;
    (eapply run_bind; [apply Hopt; eassumption|]; intros w1 s' L1 I1 [Fs' _]; up L1);
    (eapply run_weaken; [now apply run_clone|]; cbv beta; intros w2 y L2 (j & -> & Hj); up L2; destruct Ho as [Ho1 Ho2]; cbn; auto).
Qed.

(* the layers of a chain: dicts in use, crops only at the end *)
Definition layer_ok (w : world) (l : olayer) : Prop :=
  match l with ODeq m _ => owns w true m | OCr m _ _ _ _ _ => owns w false m end.
Fixpoint crops_last (l : list olayer) : Prop :=
  match l with
  | [] => True
  | ODeq _ _ :: r => crops_last r
  | OCr _ _ _ _ _ _ :: r => Forall (fun l => is_ocr l = true) r
  end.

Lemma crops_crops l : Forall (fun l => is_ocr l = true) l -> crops_last l.
Proof. induction 1 as [|[|] l E F IH]; cbn; [trivial|discriminate|exact F]. Qed.

Lemma lookahead_ok n : forall x w chain os k, fits w x -> chain_ok x ->
  h_lookahead n x = Some (chain, (os, k)) ->
  Forall (layer_ok w) chain /\ crops_last chain /\ fits w os /\ not_deq os /\ chain_ok os /\
  (not_deq x -> Forall (fun l => is_ocr l = true) chain).
Proof.
  induction n as [|n IH]; intros x w chain os k F C H; [discriminate|]. cbn [h_lookahead] in H.
  destruct x as [i l|i ps d|i m s ys xs ci nm nc|i m s M al|i m s q|i m s k']; try discriminate;
    cbn [fits oid chain_ok] in F, C.
  - destruct F as (Hi & Hm & Ht & Fs). destruct C as [C1 C2].
    destruct (h_lookahead n s) as [[c [os' k']]|] eqn:E; [|discriminate]. injection H as <- <- <-.
    destruct (IH _ _ _ _ _ Fs C2 E) as (A1 & A2 & A3 & A4 & A5 & A6). pose proof (A6 C1) as A7.
    split; [constructor; [split; auto|exact A1]|]. split; [exact A7|]. repeat (split; [assumption|]).
    intros _. constructor; auto.
  - destruct F as (Hi & Hm & Ht & Fs).
    destruct (h_lookahead n s) as [[c [os' k']]|] eqn:E; [|discriminate]. injection H as <- <- <-.
    destruct (IH _ _ _ _ _ Fs C E) as (A1 & A2 & A3 & A4 & A5 & A6).
    split; [constructor; [split; auto|exact A1]|]. split; [exact A2|]. repeat (split; [assumption|]).
    intros [].
  - destruct F as (Hi & Hm & Ht & Fs). destruct C as [C1 C2]. injection H as <- <- <-.
    split; [constructor|]. split; [exact Logic.I|]. repeat (split; [assumption|]). constructor.
Qed.

Definition deq_layer (w : world) (l : olayer) : Prop :=
  match l with ODeq m _ => owns w true m | _ => False end.
Lemma deq_layer_le w w' l : le w w' -> deq_layer w l -> deq_layer w' l.
Proof. intros L. destruct l; cbn; [now apply owns_le|auto]. Qed.

(* with at most one crop, only the last layer can be one *)
Lemma chain_tail w chain l above : Forall (layer_ok w) chain -> crops_last chain ->
  (1 <? List.length (filter is_ocr chain))%nat = false -> rev chain = l :: above ->
  match l with
  | OCr _ _ _ _ _ _ => Forall (deq_layer w) (rev above)
  | ODeq _ _ => Forall (deq_layer w) chain
  end.
Proof.
  intros F C N E. assert (E' : chain = (rev above ++ [l])%list).
  { rewrite <- (rev_involutive chain), E. reflexivity. }
  clear E. subst chain. set (ab := rev above) in *. clearbody ab. clear above. rename ab into above.
  apply Nat.ltb_ge in N. rewrite filter_app, app_length in N.
  apply Forall_app in F as [Fa Fl]. apply Forall_cons_iff in Fl as [Fl _].
  destruct l as [m q|m ys xs ci nm nc].
  - apply Forall_app. split; [|constructor; [exact Fl|constructor]].
    clear N. induction above as [|a above IH]; [constructor|].
    apply Forall_cons_iff in Fa as [Fa Fb]. destruct a; cbn in C.
    + constructor; auto.
    + apply Forall_app in C as [_ C]. inversion C; discriminate.
  - assert (Hn : filter is_ocr above = []).
    { destruct (filter is_ocr above); [reflexivity|]. cbn in N. lia. }
    clear N C. induction above as [|a above IH]; [constructor|].
    apply Forall_cons_iff in Fa as [Fa Fb]. destruct a; cbn in Hn; [|discriminate]. constructor; auto.
Qed.

Lemma run_write_layers nd chain w : inv w -> Forall (deq_layer w) chain ->
  run (mapA (h_write_layer nd) chain) (fun _ _ => True) w.
Proof.
  intros I F. eapply run_weaken.
  - apply run_mapA with (P := deq_layer) (Q := fun _ _ _ => True); [exact deq_layer_le|auto| |exact I|exact F].
    intros u l Iu Hl. destruct l as [m q|]; [|contradiction]. cbn. apply run_write; assumption.
  - auto.
Qed.

Lemma run_rebuild chain : forall x w, inv w -> Forall (deq_layer w) chain -> fine w x ->
  run (h_rebuild chain x) fine w.
Proof.
  induction chain as [|l chain IH]; intros x w I F Fx; cbn [h_rebuild]; [now apply run_ret|].
  apply Forall_cons_iff in F as [Fl F]. eapply run_bind; [apply IH; assumption|].
  intros w1 y L1 I1 [Fy Cy]. apply (deq_layer_le _ _ _ L1) in Fl. destruct l as [m q|]; [|contradiction].
  cbn [h_relayer]. eapply run_weaken; [now apply run_clone|]. cbv beta. intros w2 z L2 (i & -> & Hi).
  cbn in Fl. up L2. destruct Fl as [F1 F2]. split; [cbn; auto|exact Cy].
Qed.

Lemma run_absorb o x m s M al w : inv w -> fits w x -> chain_ok x -> fits w s -> chain_ok s ->
  run (h_absorb o x m s M al) fine w.
Proof.
  intros I Fx Cx Fs Cs. assert (Hself : run (ret x) fine w) by (apply run_ret; [assumption|split; assumption]).
  unfold h_absorb. destruct (negb (absorbs o M)); [exact Hself|].
  destruct (h_lookahead 4 s) as [[chain [os k]]|] eqn:El; [|exact Hself].
  destruct (1 <? List.length (filter is_ocr chain))%nat eqn:En; [exact Hself|].
  destruct (lookahead_ok _ _ _ _ _ _ Fs Cs El) as (A1 & A2 & A3 & A4 & A5 & _).
  eapply run_bind with (Q := fun w r => fine w (fst r)).
  - destruct (rev chain) as [|l above] eqn:Er.
    + apply run_ret; [assumption|]. split; assumption.
    + pose proof (chain_tail _ _ _ _ A1 A2 En Er) as Ht. destruct l as [dm q|cm ys xs ci nm nc].
      * eapply run_bind; [now apply run_tryf|]. intros w1 nd L1 I1 _.
        assert (Ht1 : Forall (deq_layer w1) chain).
        { eapply Forall_impl; [|exact Ht]. intros a. now apply deq_layer_le. }
        eapply run_bind; [now apply run_write_layers|]. intros w2 u L2 I2 _.
        assert (Ht2 : Forall (deq_layer w2) chain).
        { eapply Forall_impl; [|exact Ht1]. intros a. now apply deq_layer_le. }
        eapply run_bind; [apply run_rebuild; [assumption|assumption|]|].
        { split; [|assumption]. eapply fits_le; [eassumption|]. eapply fits_le; eassumption. }
        intros w3 h L3 I3 Hh. now apply run_ret.
      * eapply run_bind; [now apply run_dict|]. intros w1 cd L1 I1 _. up L1.
        eapply run_bind; [now apply run_warp_after_crop|]. intros w2 r L2 I2 Hr.
        destruct r as [[c T]|]; [|apply run_raise]. destruct Hr as (Fc & ci' & cm' & ys' & xs' & cci & cnm & cnc & Ec).
        assert (Ht2 : Forall (deq_layer w2) (rev above)).
        { eapply Forall_impl; [|exact Ht]. intros a Ha. eapply deq_layer_le; [exact L2|]. now apply (deq_layer_le w). }
        assert (Cc : chain_ok c) by (subst c; split; assumption).
        eapply run_bind; [now apply run_look|]. intros w3 nd L3 I3 _. up L3.
        assert (Ht3 : Forall (deq_layer w3) (rev above)).
        { eapply Forall_impl; [|exact Ht2]. intros a. now apply deq_layer_le. }
        eapply run_bind; [now apply run_write_layers|]. intros w4 u L4 I4 _. up L4.
        assert (Ht4 : Forall (deq_layer w4) (rev above)).
        { eapply Forall_impl; [|exact Ht3]. intros a. now apply deq_layer_le. }
        eapply run_bind; [apply run_rebuild; [assumption|assumption|split; assumption]|].
        intros w5 h L5 I5 Hh. now apply run_ret.
  - intros w1 [h T] L1 I1 [Fh Ch]. cbn [fst snd] in *. adv @run_dict w2 d Hd.
    eapply run_weaken; [now apply run_warp|]. intros w3 y L3 (Fy & i & m' & M' & al' & ->).
    split; [exact Fy|exact Ch].
Qed.

(** ** optimize() *)

Lemma run_push_tail x w : inv w -> fine w x -> run (h_push_tail opt x) fine w.
Proof.
  intros I [F C]. unfold h_push_tail. adv @run_lift w1 sd Hsd.
  assert (Hself : run (ret x) fine w1) by (apply run_ret; [assumption|split; assumption]).
  destruct sd as [[| | | | |]|]; try exact Hself.
  adv run_push w2 p Hp. destruct p as [p|]; [|apply run_ret; [assumption|split; assumption]].
  destruct Hp as [Hp _]. now apply Hopt.
Qed.

Lemma run_opt_warp o m s1 M al w : inv w -> owns w false m -> fine w s1 ->
  run (h_opt_warp o opt m s1 M al) fine w.
Proof.
  intros I Hm [F C]. unfold h_opt_warp. adv @run_dict w0 d0 Hd0.
  eapply run_bind with (Q := fun w y => fine w y /\ exists i m' s M' al', y = OWarp i m' s M' al').
  { destruct s1 as [i l|i ps d|i m1 s ys xs ci nm nc|i m1 s M1 al1|i m1 s q|i m1 s k];
      try (eapply run_weaken; [now apply run_clone|]; cbv beta; intros w2 y L2 (j & -> & Hj); up L2;
           split; [split; [|exact C]|eauto 10]; destruct Hm as [H1 H2]; split; [exact Hj|]; repeat (split; [assumption|]); exact F).
    assert (Fs : fits w0 s) by apply F.
    eapply run_weaken; [now apply run_warp|]. intros w2 y L2 (Fy & j & mj & M' & al' & ->).
    split; [split; [exact Fy|exact C]|eauto 10]. }
  intros w1 new L1 I1 ([Fn Cn] & i & m' & s & M' & al' & ->). assert (Fs : fits w1 s) by apply Fn.
  cbn [chain_ok] in Cn. adv @run_dict w2 d Hd. adv @run_look w3 sd Hsd.
  destruct (_ && _)%bool; [apply run_ret; [assumption|split; assumption]|]. cbv zeta.
  assert (Hother : run (sp <~ h_split o opt s M' (known d) al';;
          match sp with Some n => n' <~ h_opt_sub opt n;; opt n' | None => h_absorb o (OWarp i m' s M' al') m' s M' al' end)
          fine w3).
  { adv run_split w4 sp Hsp. destruct sp as [n|].
    - adv run_opt_sub w5 n' Hn'. now apply Hopt.
    - now apply run_absorb. }
  destruct s; try exact Hother.
  - destruct (is_nans l); [|exact Hother]. eapply run_weaken; [now apply run_leaf|].
    cbv beta. intros w4 y L4 (Fy & j & l' & ->). split; [exact Fy|exact Logic.I].
  - apply run_push_tail; [assumption|]. split; assumption.
Qed.

Lemma run_opt_dequant m s1 q w : inv w -> owns w true m -> fine w s1 ->
  run (h_opt_dequant opt m s1 q) fine w.
Proof.
  intros I Hm [F C]. unfold h_opt_dequant.
  assert (Hgen : run (new <~ clone (fun i => ODequant i m s1 q);; h_push_tail opt new) fine w).
  { adv @run_clone w1 y Hy. destruct Hy as (i & -> & Hi). apply run_push_tail; [assumption|].
    destruct Hm as [H1 H2]. split; [|exact C]. cbn; auto. }
  destruct s1 as [i l|i ps d|i m1 s ys xs ci nm nc|i m1 s M1 al1|i m1 s q1|i m1 s k]; try exact Hgen.
  - cbn in F. destruct F as (Hi & Hm1 & Ht & Fs). assert (Ho : owns w false m1) by (split; auto).
    adv run_dequant w1 s' Hs'. destruct Hs' as [Hs' _]. adv @run_clone w2 y Hy. destruct Hy as (j & -> & Hj).
    eapply run_bind.
    + apply Hopt; [assumption|]. destruct Ho as [H1 H2]. cbn; auto.
    + intros w3 n L3 I3 Hn. now apply run_push_tail.
  - apply run_raise.
Qed.

Lemma run_crop_tail x w : inv w -> fine w x -> run (h_crop_tail opt x) fine w.
Proof.
  intros I [F C]. unfold h_crop_tail.
  assert (Hgen : run (h_push_tail opt x) fine w) by (apply run_push_tail; [assumption|split; assumption]).
  destruct x as [i l|i ps d|i m s ys xs ci nm nc|i m s M al|i m s q|i m s k]; try exact Hgen.
  destruct s as [| i0 ps d0 | | | |]; try exact Hgen. clear Hgen.
  cbn [fits oid] in F. fold (fits w (OConcat i0 ps d0)) in F.
  assert (Fs : fits w (OConcat i0 ps d0)) by apply F.
  eapply run_bind with (Q := fun w y => fits w y).
  { destruct ci as [l|]; [|now apply run_ret]. adv run_take w1 t' Ht.
    eapply run_weaken; [now apply Hopt|]. intros w2 y L2 [Hy _]. exact Hy. }
  intros w1 taken L1 I1 Ft. adv run_crop w2 c Hc. destruct Hc as [Hc _].
  adv run_push w3 p Hp. destruct p as [p|]; [destruct Hp as [Hp _]|]; now apply Hopt.
Qed.

Lemma run_opt_crop m s1 ys xs ci nm nc w : inv w -> owns w false m -> fine w s1 ->
  run (h_opt_crop opt m s1 ys xs ci nm nc) fine w.
Proof.
  intros I Hm [F C]. unfold h_opt_crop.
  eapply run_bind with (Q := fun w y => fits w y /\ exists i m' s ys' xs' ci' nm' nc', y = OCrop i m' s ys' xs' ci' nm' nc' /\ chain_ok s).
  { destruct s1 as [i l|i ps d|i m1 s ys1 xs1 ci1 nm1 nc1|i m1 s M1 al1|i m1 s q|i m1 s k];
      try (eapply run_weaken; [now apply run_clone|]; cbv beta; intros w2 y L2 (j & -> & Hj); up L2;
           split; [|eauto 12]; destruct Hm as [H1 H2]; split; [exact Hj|]; repeat (split; [assumption|]); exact F).
    assert (Fs : fits w s) by apply F. destruct C as [_ C].
    eapply run_weaken; [now apply run_fuse_crops|].
    intros w2 y L2 (Fy & j & mj & ys' & xs' & ci' & nm' & nc' & ->). split; [exact Fy|]. eauto 12. }
  intros w1 c1 L1 I1 (F1 & i & m' & s & ys' & xs' & ci' & nm' & nc' & -> & C1).
  assert (Hm' : owns w1 false m') by (split; apply F1). assert (Fs : fits w1 s) by apply F1.
  assert (Hself : not_deq s -> run (ret (OCrop i m' s ys' xs' ci' nm' nc')) fine w1).
  { intros Hd. apply run_ret; [assumption|]. split; [exact F1|split; assumption]. }
  assert (Htail : not_deq s -> run (h_crop_tail opt (OCrop i m' s ys' xs' ci' nm' nc')) fine w1).
  { intros Hd. apply run_crop_tail; [assumption|]. split; [exact F1|split; assumption]. }
  destruct s as [i0 l|i0 ps d|i0 m1 s ys1 xs1 ci1 nm1 nc1|i0 m1 s M1 al1|i0 m1 s q|i0 m1 s k];
    try (apply Htail; exact Logic.I).
  - destruct (is_nans l); [|apply Hself; exact Logic.I].
    adv @run_lift w2 t Ht. eapply run_weaken; [now apply run_leaf|].
    cbv beta. intros w4 y L4 (Fy & j & l' & ->). split; [exact Fy|exact Logic.I].
  - destruct (al_nearest al1); [apply Hself; exact Logic.I|].
    assert (Fs' : fits w1 s) by apply Fs. adv @run_dict w2 d' Hd'. adv run_warp_after_crop w3 r Hr.
    destruct r as [[c T]|]; [|apply run_ret; [assumption|]; split; [assumption|split; [exact Logic.I|exact C1]]].
    destruct Hr as [Fc _]. adv run_warp w4 y Hy. destruct Hy as [Fy _].
    eapply run_bind; [apply Hopt; assumption|]. intros w5 n L5 I5 Hn. now apply run_crop_tail.
  - assert (Fs' : fits w1 s) by apply Fs. adv @run_clone w2 c Hc. destruct Hc as (j & -> & Hj).
    assert (Fc : fits w2 (OCrop j m' s ys' xs' ci' nm' nc')).
    { destruct Hm' as [H1 H2]. cbn; auto. }
    adv run_dequant w3 x Hx. destruct Hx as [Fx _].
    eapply run_bind; [apply Hopt; assumption|]. intros w5 n L5 I5 Hn. now apply run_crop_tail.
Qed.

Lemma run_opt_overview m s1 k w : inv w -> owns w false m -> fine w s1 ->
  run (h_opt_overview opt m s1 k) fine w.
Proof.
  intros I Hm [F C]. unfold h_opt_overview.
  eapply run_bind with (Q := fun w y => fits w y /\ exists i m' s k', y = OOverview i m' s k' /\ chain_ok s).
  { destruct s1 as [i l|i ps d|i m1 s ys1 xs1 ci1 nm1 nc1|i m1 s M1 al1|i m1 s q|i m1 s k'];
      try (eapply run_weaken; [now apply run_clone|]; cbv beta; intros w2 y L2 (j & -> & Hj); up L2;
           split; [|eauto 12]; destruct Hm as [H1 H2]; split; [exact Hj|]; repeat (split; [assumption|]); exact F).
    assert (Fs : fits w s) by apply F. destruct C as [_ C].
    eapply run_weaken; [now apply run_overview|].
    intros w2 y L2 (Fy & j & mj & kj & ->). split; [exact Fy|]. eauto 12. }
  intros w1 o1 L1 I1 (F1 & i & m' & s & k' & -> & C1).
  assert (Hm' : owns w1 false m') by (split; apply F1). assert (Fs : fits w1 s) by apply F1.
  destruct (k' =? 0)%Z; [apply run_push_tail; [assumption|split; assumption]|].
  assert (Htail : not_deq s -> run (h_push_tail opt (OOverview i m' s k')) fine w1).
  { intros Hd. apply run_push_tail; [assumption|]. split; [exact F1|split; assumption]. }
  destruct s as [i0 l|i0 ps d|i0 m1 s ys1 xs1 ci1 nm1 nc1|i0 m1 s M1 al1|i0 m1 s q|i0 m1 s k0];
    try (apply Htail; exact Logic.I).
  - assert (Fs' : fits w1 s) by apply Fs. adv run_crop_after_overview w2 n Hn.
    eapply run_bind; [apply Hopt; assumption|]. intros w5 n' L5 I5 Hn'. now apply run_push_tail.
  - assert (Fs' : fits w1 s) by apply Fs. adv run_warp_after_overview w2 n Hn.
    eapply run_bind; [apply Hopt; assumption|]. intros w5 n' L5 I5 Hn'. now apply run_push_tail.
  - assert (Fs' : fits w1 s) by apply Fs. adv @run_clone w2 c Hc. destruct Hc as (j & -> & Hj).
    assert (Fc : fits w2 (OOverview j m' s k')).
    { destruct Hm' as [H1 H2]. cbn; auto. }
    adv run_dequant w3 x Hx. destruct Hx as [Fx _].
    eapply run_bind; [apply Hopt; assumption|]. intros w5 n L5 I5 Hn. now apply run_push_tail.
Qed.

End Opt.

Lemma memo_get_In l i y : memo_get l i = Some y -> In (i, y) l.
Proof.
  induction l as [|[j z] l IH]; cbn; [discriminate|].
  destruct (Nat.eqb_spec j i) as [->|]; [intros [= ->]; now left|auto].
Qed.

Lemma run_remember x y w : inv w -> fine w y -> run (remember x y) (fun _ _ => True) w.
Proof.
  intros I Hy a s' E. unfold remember in E. injection E as <- <-.
  exists (World (ty w) (Store (next (st w)) (sizes (st w)) ((oid x, y) :: memo (st w)))).
  split; [reflexivity|]. split; [split; auto|]. split; [|trivial].
  constructor.
  - destruct Hy as [Fy Cy]. split; [|exact Cy]. eapply fits_eq; [| |exact Fy]; reflexivity.
  - eapply Forall_impl; [|exact I]. cbn. intros e [Fe Ce]. split; [|exact Ce].
    eapply fits_eq; [| |exact Fe]; reflexivity.
Qed.

Theorem run_optimize shared o : forall fuel x w, inv w -> fits w x ->
  run (h_optimize shared o fuel x) fine w.
Proof.
  induction fuel as [|f IH]; intros x w I F; [apply run_raise|].
  intros y s' E. cbn [h_optimize] in E.
  destruct (if shared then memo_get (memo (st w)) (oid x) else None) as [y'|] eqn:Em.
  - injection E as <- <-. destruct shared; [|discriminate]. apply memo_get_In in Em.
    exists w. split; [reflexivity|]. split; [apply le_refl|]. split; [exact I|].
    unfold inv in I. rewrite Forall_forall in I. exact (I _ Em).
  - clear Em. cbv zeta in E. revert y s' E.
    change (run (y <~ match x with
                | OLeaf _ _ => ret x
                | OConcat _ ps _ =>
                    qs <~ mapA (h_optimize shared o f) ps ;;
                    if all_same qs ps then ret x
                    else c <~ h_concat qs ;; ret (match c with Some c => c | None => x end)
                | OWarp _ m s M al => s1 <~ h_optimize shared o f s ;; h_opt_warp o (h_optimize shared o f) m s1 M al
                | ODequant _ m s q => s1 <~ h_optimize shared o f s ;; h_opt_dequant (h_optimize shared o f) m s1 q
                | OCrop _ m s ys xs ci nm nc => s1 <~ h_optimize shared o f s ;; h_opt_crop (h_optimize shared o f) m s1 ys xs ci nm nc
                | OOverview _ m s k => s1 <~ h_optimize shared o f s ;; h_opt_overview (h_optimize shared o f) m s1 k
                end ;;
           u <~ remember x y ;; ret y) fine w).
    eapply run_bind with (Q := fine).
    + destruct x as [i l|i ps d|i m s ys xs ci nm nc|i m s M al|i m s q|i m s k].
      * apply run_ret; [exact I|]. split; [exact F|exact Logic.I].
      * eapply run_bind.
        -- eapply run_mapA with (P := fits) (Q := fun w a b => fine w b);
             [intros; eapply fits_le; eassumption|intros; eapply fine_le; eassumption|exact (fun w a Iw Fw => IH a w Iw Fw)|exact I|].
           now apply fits_concat in F.
        -- intros w1 qs L1 I1 Hq. up L1.
           destruct (all_same qs ps); [apply run_ret; [assumption|split; [exact F|exact Logic.I]]|].
           eapply run_bind; [apply run_concat; [assumption|]|].
           { clear -Hq. induction Hq as [|a y l ys [H _] FF IH]; constructor; auto. }
           intros w2 c L2 I2 Hc. up L2. apply run_ret; [assumption|].
           destruct c as [c|]; [|split; [exact F|exact Logic.I]].
           destruct Hc as (Fc & i' & ps' & d' & ->). split; [exact Fc|exact Logic.I].
      * assert (Ho : owns w false m) by (split; apply F). eapply run_bind; [apply IH; [exact I|apply F]|].
        intros w1 s1 L1 I1 H1. up L1. now apply run_opt_crop.
      * assert (Ho : owns w false m) by (split; apply F). eapply run_bind; [apply IH; [exact I|apply F]|].
        intros w1 s1 L1 I1 H1. up L1. now apply run_opt_warp.
      * assert (Ho : owns w true m) by (split; apply F). eapply run_bind; [apply IH; [exact I|apply F]|].
        intros w1 s1 L1 I1 H1. up L1. now apply run_opt_dequant.
      * assert (Ho : owns w false m) by (split; apply F). eapply run_bind; [apply IH; [exact I|apply F]|].
        intros w1 s1 L1 I1 H1. up L1. now apply run_opt_overview.
    + intros w1 y L1 I1 Hy. eapply run_bind; [apply run_remember; assumption|].
      intros w2 u L2 I2 _. apply run_ret; [assumption|]. eapply fine_le; eassumption.
Qed.
