(* Properties of take_channels with a list that may hold None. *)
From Verif Require Import Py PyProofs GeomModel GraphModel GraphSpec GraphBase GraphTake FinalModel TakeModel TakeProofs TakeListModel.
From Coq Require Import ZifyBool.
Local Open Scope Z_scope.

Definition tagged (s : nat * list Z) : band_run := (Some (fst s), map (fun j => (j, ""%string)) (snd s)).

Lemma runs_segments wh : runs (map (fun pj : nat * Z => (Some pj, ""%string)) wh) = map tagged (segments wh).
Proof.
  induction wh as [|[p j] wh IH]; [reflexivity|]. cbn [map runs segments]. rewrite IH. cbn [option_map fst].
  destruct (segments wh) as [|[p' js] rest]; [reflexivity|]. cbn [map]. unfold tagged at 1. cbn [fst snd key_eqb].
  destruct (Nat.eqb_spec p p') as [->|]; reflexivity.
Qed.

Lemma list_component_tagged parts d s : list_component parts d (tagged s) = sub_component parts s.
Proof. unfold list_component, tagged. cbn [fst snd]. rewrite map_map. cbn. rewrite map_id. now destruct s. Qed.

Lemma locate_somes sizes l : mapR (locate sizes) (map (fun o => (o, ""%string)) (map Some l)) =
  rmap (map (fun pj : nat * Z => (Some pj, ""%string))) (mapR (fun i => unravel sizes i 0) l).
Proof.
  induction l as [|i l IH]; [reflexivity|]. cbn [map mapR]. rewrite IH. unfold locate. cbn [fst snd].
  destruct (unravel sizes i 0) as [[p j]|e]; [|reflexivity]. cbn [bind]. destruct (mapR (fun i => unravel sizes i 0) l); reflexivity.
Qed.

Lemma all_some_map {A} (l : list A) : all_some (map Some l) = Some l.
Proof. induction l as [|a l IH]; [reflexivity|]. cbn. now rewrite IH. Qed.
Lemma all_some_none {A} (l : list (option A)) : In None l -> all_some l = None.
Proof. induction l as [|[a|] l IH]; [intros []| |reflexivity]. intros [H|H]; [discriminate|]. cbn. now rewrite IH. Qed.

Lemma take_list_somes t l : take_list t ReturnNan (map Some l) = take_idx t l.
Proof.
  destruct t as [lf|parts d| | | |]; cbn [take_list take_idx]; rewrite ?all_some_map; try reflexivity.
  destruct (names (Concat parts d)); [|reflexivity]. destruct (known_all (map num_channels parts)) as [sizes|]; [|reflexivity].
  rewrite locate_somes. destruct (mapR (fun i => unravel sizes i 0) l) as [wh|e]; [|reflexivity]. cbn [rmap bind].
  rewrite runs_segments, mapR_map. rewrite (mapR_ext _ (sub_component (map (fun p => (p, take_idx p)) parts))) by (intros; apply list_component_tagged).
  reflexivity.
Qed.

Lemma locate_none sizes l wh : mapR (locate sizes) (map (fun o => (o, ""%string)) l) = Ok wh -> In None l -> In (None, ""%string) wh.
Proof.
  intros H. apply mapR_Forall2 in H. remember (map (fun o => (o, ""%string)) l) as l' eqn:El. revert l El.
  induction H as [|[o s] [w c] l' wh Hl _ IH]; intros l El Hin; destruct l as [|o' l]; try discriminate; [destruct Hin|].
  cbn in El. injection El as -> -> El. destruct Hin as [->|Hin]; [|right; now apply (IH l)].
  unfold locate in Hl. cbn in Hl. injection Hl as <- <-. now left.
Qed.

Lemma runs_none wh : In (None, ""%string) wh -> exists vs, In (None, vs) (runs wh).
Proof.
  intros H. rewrite <- (runs_flat wh) in H. apply in_flat_map in H as ([[p|] vs] & Hr & Hu); [|now exists vs].
  exfalso. unfold unrun in Hu. cbn in Hu. apply in_map_iff in Hu as (v & E & _). discriminate.
Qed.

Lemma sum_opt_none (l : list (option Z)) : In None l -> sum_opt l = None.
Proof.
  induction l as [|o l IH]; [intros []|]. intros [->|H]; [reflexivity|]. cbn. rewrite IH by exact H. now destruct o.
Qed.
Lemma concat_opt_none l : In None l -> concat_opt l = None.
Proof. induction l as [|o l IH]; [intros []|]. intros [->|H]; [reflexivity|]. cbn. rewrite IH by exact H. now destruct o. Qed.

Lemma mapR_err_in {A B} (f : A -> result B) l x e : In x l -> f x = Err e -> exists e', mapR f l = Err e'.
Proof.
  intros H E. destruct (mapR f l) as [r|e'] eqn:Er; [|now exists e'].
  exfalso. apply mapR_Forall2 in Er. induction Er as [|a b l r Hab _ IH]; [destruct H|]. destruct H as [->|H]; [congruence|]. now apply IH.
Qed.

(** * C148: None in a list of bands *)

(* Lists without None are the integer selections of the other theorems; the policy
   for missing channels does not apply to lists. *)
Theorem C148_integers t l :
  take_list t ReturnNan (map Some l) = take_idx t l /\
  (forall ps d, t = Concat ps d -> take_list t ErrorP (map Some l) = Err AssertionError) /\
  ((forall ps d, t <> Concat ps d) -> forall p, take_list t p (map Some l) = take_idx t l).
Proof.
  split; [apply take_list_somes|]. split.
  - intros ps d ->. cbn [take_list]. now destruct (names _).
  - intros H p. rewrite <- take_list_somes. destruct t; try reflexivity. exfalso. now eapply H.
Qed.
Print Assumptions C148_integers.

(* The full statement, that None stands for a band of missing data, is false for
   every list that holds None: an image refuses it, and a concatenation gives an image
   without a known number of bands that cannot be finalized. *)
Theorem C148_none_partial {V} (W : world V) t p l t' : In None l -> take_list t p l = Ok t' ->
  (exists ps d, t = Concat ps d) /\ num_channels t' = None /\ names t' = None /\ exists e, finalize W t' = Err e.
Proof.
  intros Hin H. destruct t as [lf|parts d| | | |]; cbn [take_list] in H; try (rewrite (all_some_none l Hin) in H; discriminate). split; [now exists parts, d|].
  destruct (names (Concat parts d)); [|discriminate]. destruct p; try discriminate.
  destruct (known_all (map num_channels parts)) as [sizes|]; [|discriminate].
  apply bind_ok in H as (wh & Hw & H). apply bind_ok in H as (comps & Hc & H). destruct (mkConcat comps) as [c|] eqn:Em; [|discriminate]. injection H as ->.
  apply mkConcat_spec in Em as (d' & -> & _ & _). destruct (runs_none wh (locate_none _ _ _ Hw Hin)) as (vs & Hr).
  assert (Hn : exists d0, In (Leaf (MkLeaf 0 Nans d0 None None None)) comps).
  { apply mapR_Forall2 in Hc. induction Hc as [|r c rs cs Hrc _ IH]; [destruct Hr|]. destruct Hr as [->|Hr].
    - unfold list_component in Hrc. cbn in Hrc. destruct d as [d0|]; [|discriminate]. injection Hrc as <-. exists d0. now left.
    - destruct (IH Hr) as (d0 & Hd). exists d0. now right. }
  destruct Hn as (d0 & Hn). repeat split.
  - cbn [num_channels]. apply sum_opt_none. apply in_map_iff. now exists (Leaf (MkLeaf 0 Nans d0 None None None)).
  - cbn [names]. apply concat_opt_none. apply in_map_iff. now exists (Leaf (MkLeaf 0 Nans d0 None None None)).
  - cbn [finalize]. rewrite mapR_map. edestruct (@mapR_err_in _ _ (fun x => finalize W x) comps) as (e & E); [exact Hn|cbn; destruct d0; reflexivity|].
    exists e. rewrite E. reflexivity.
Qed.
Print Assumptions C148_none_partial.

(** Two images of 4 x 3 with the channels r, g and b. *)
Definition tl_concat : node :=
  Concat [Leaf (MkLeaf 1 Data (4, 3) (Some ["r"; "g"]%string) (Some 2) None); Leaf (MkLeaf 2 Data (4, 3) (Some ["b"]%string) (Some 1) None)] (Some (4, 3)).
Example C148_integers_case : exists t', take_list tl_concat ReturnNan [Some 2; Some 0] = Ok t' /\ names t' = Some ["b"; "r"]%string /\
  take_list tl_concat ErrorP [Some 2; Some 0] = Err AssertionError.
Proof. eexists. repeat split. Qed.
Example C148_none_case : exists t', take_list tl_concat ReturnNan [Some 2; None; None; Some 0] = Ok t' /\ dsize t' = Some (4, 3) /\
  num_channels t' = None /\ forall V (W : world V), finalize W t' = Err TypeError.
Proof. eexists. repeat split. Qed.

Theorem C148_none_refuted : ~ forall t l t', take_list t ReturnNan l = Ok t' -> num_channels t' = Some (Z.of_nat (List.length l)).
Proof. intros H. specialize (H tl_concat [Some 2; None] _ eq_refl). discriminate H. Qed.
Print Assumptions C148_none_refuted.
