(* C133: sizes and numbers of channels of concatenations; C134: numbers given as channels. *)
From Verif Require Import SensorCoerceModel.
From Verif Require Import PyProofs ChanProofs HistModel HistSpec HistProofs.
Local Open Scope Z_scope.

Lemma size_eqb_eq a b : size_eqb a b = true <-> a = b.
Proof.
  destruct a as [[[a1|] [a2|]]|], b as [[[b1|] [b2|]]|]; cbn; rewrite ?andb_true_iff, ?Z.eqb_eq, ?andb_false_r;
    split; intros H; try congruence; try (destruct H; congruence); try (inversion H; subst; auto).
Qed.

Lemma sum_num_ok l s : sum_num l = Some s <-> exists ns, l = map Some ns /\ s = fold_right Z.add 0 ns.
Proof.
  revert s. induction l as [|[n|] l IH]; intros s; cbn [sum_num].
  - split; [intros [= <-]; exists []; auto|]. intros ([|] & [=] & ->). reflexivity.
  - destruct (sum_num l) as [r|] eqn:E.
    + split.
      * intros [= <-]. destruct (proj1 (IH r) eq_refl) as (ns & -> & ->). exists (n :: ns). auto.
      * intros ([|m ns] & [=] & ->). subst m. assert (K : Some r = Some (fold_right Z.add 0 ns)) by (apply IH; eauto). injection K as ->. reflexivity.
    + split; [discriminate|]. intros ([|m ns] & [=] & ->). exfalso. assert (K : None = Some (fold_right Z.add 0 ns)) by (apply IH; eauto). discriminate.
  - split; [discriminate|]. intros ([|m ns] & [=] & _).
Qed.

Lemma older_low o h i : (i < List.length h)%nat ->
  size_of (o :: h) i = size_of h i /\ num_channels (o :: h) i = num_channels h i /\ channels (o :: h) i = channels h i.
Proof. intros H. cbn. rewrite (proj2 (Nat.eqb_neq i (List.length h))) by lia. auto. Qed.

(** After any history, concatenating images (all of them objects of the history) succeeds
    exactly when their sizes agree or a size is given.  The result has the size and, if
    every part knows its number of channels, their sum; nothing else changes. *)
Theorem C133_concat : forall ops ps d, let h := after ops in let new := List.length h in
  Forall (fun p => (p < List.length h)%nat) ps ->
  ((exists h', hstep h (HConcat ps d) = Ok h') <->
     d <> None \/ forall p q, In p ps -> In q ps -> size_of h p = size_of h q) /\
  (forall h', hstep h (HConcat ps d) = Ok h' ->
     (d <> None -> size_of h' new = d) /\
     (d = None -> forall p, In p ps -> size_of h' new = size_of h p) /\
     (forall n, num_channels h' new = Some n <->
        exists ns, Forall2 (fun p m => num_channels h p = Some m) ps ns /\ n = fold_right Z.add 0 ns) /\
     forall i, (i < new)%nat -> size_of h' i = size_of h i /\ num_channels h' i = num_channels h i /\ channels h' i = channels h i).
Proof.
  intros ops ps d h new Hps. cbn [hstep].
  assert (Hok : forallb (fun i => (i <? List.length h)%nat) ps = true).
  { apply forallb_forall. intros p Hp. apply Nat.ltb_lt. revert p Hp. now apply Forall_forall. }
  rewrite Hok.
  assert (C : forall r, common_size (map (size_of h) ps) = Ok r <-> (forall p q, In p ps -> In q ps -> size_of h p = size_of h q) /\
     match ps with [] => r = None | p :: _ => r = size_of h p end).
  { intros r. destruct ps as [|p ps]; cbn [map common_size].
    - split; [intros H; inversion H; split; [intros ? ? []|reflexivity]|intros (_ & ->); reflexivity].
    - assert (E : forallb (size_eqb (size_of h p)) (map (size_of h) ps) = true <-> forall q, In q ps -> size_of h p = size_of h q).
      { rewrite forallb_forall. split.
        - intros H q Hq. apply size_eqb_eq, H. now apply in_map.
        - intros H x Hx. apply in_map_iff in Hx as (q & <- & Hq). now apply size_eqb_eq, H. }
      clear Hok. destruct (forallb _ _).
      + split; [intros H; inversion H; subst r; split; [|reflexivity]|intros (_ & ->); reflexivity].
        assert (K : forall q, In q (p :: ps) -> size_of h p = size_of h q) by (intros q [<- |Hq]; [reflexivity|now apply E]).
        intros a b Ha Hb. rewrite <- (K a Ha). now apply K.
      + split; [discriminate|]. intros (H & _). assert (X : false = true) by (apply E; intros q Hq; apply H; [now left|now right]). discriminate. }
  split.
  - destruct d as [d|]; cbn [bind].
    + split; [left; discriminate|eauto].
    + split.
      * intros (h' & H). apply bind_ok in H as (r & Hr & _). right. now apply C in Hr.
      * intros [H|H]; [congruence|]. assert (K : exists r, common_size (map (size_of h) ps) = Ok r).
        { destruct ps as [|p ps]; [exists None|exists (size_of h p)]; apply C; auto. }
        destruct K as (r & ->). cbn [bind]. eauto.
  - intros h' H. apply bind_ok in H as (r & Hr & [= <-]).
    split; [|split; [|split]].
    + intros Hd. destruct d as [d|]; [|congruence]. injection Hr as <-. cbn. now rewrite Nat.eqb_refl.
    + intros -> p Hp. apply C in Hr as (Ha & Hr). cbn. subst new. rewrite Nat.eqb_refl.
      destruct ps as [|p0 ps]; [destruct Hp|]. subst r. apply Ha; [now left|exact Hp].
    + intros n. cbn. subst new. rewrite Nat.eqb_refl, sum_num_ok. split; intros (ns & H & ->); exists ns; (split; [|reflexivity]).
      * clear -H. revert ns H. induction ps as [|p ps IH]; intros [|m ns] [=]; constructor; auto.
      * clear -H. induction H as [|p m ps ns H _ IH]; cbn; [reflexivity|]. now rewrite H, IH.
    + intros i Hi. now apply older_low.
Qed.
Print Assumptions C133_concat.
Example C133_case :
  let h := after [HArray 4 5 1 None; HArray 4 5 2 None; HArray 4 6 2 None] in
  (exists h', hstep h (HConcat [0; 1; 0]%nat None) = Ok h' /\ size_of h' 3 = Some (Some 5, Some 4) /\ num_channels h' 3 = Some 4) /\
  hstep h (HConcat [0; 2]%nat None) = Err ValueError /\
  (exists h', hstep h (HConcat [0; 2]%nat (Some (Some 7, Some 7))) = Ok h').
Proof. split; [|split; [reflexivity|]]; eexists; repeat split; vm_compute; reflexivity. Qed.

(* the integer a Python int or bool is *)
Inductive integer : cdata -> Z -> Prop :=
| int_z n : integer (DInt n) n
| int_true : integer (DBool true) 1
| int_false : integer (DBool false) 0.

Lemma integer_meta c n : integer c n -> set_meta (Some c) = Ok (None, Some n).
Proof. now intros []. Qed.

Lemma update_top p g h i : (i < List.length h)%nat -> get_obj (update p g h) i = option_map (fun o => if p i then g o else o) (get_obj h i).
Proof.
  induction h as [|o h IH]; cbn [List.length update]; [lia|]. intros Hi.
  destruct (Nat.eq_dec i (List.length h)) as [->|Hne].
  - rewrite get_top. rewrite <- (update_length p g h) at 2. rewrite get_top. reflexivity.
  - rewrite !get_low by (rewrite ?update_length; lia). apply IH. lia.
Qed.

Lemma leaf_meta h i o : get_obj h i = Some o -> match o_kind o with KLoad _ | KArray | KNans => True | _ => False end ->
  num_channels h i = o_num o /\ channels h i = o_names o.
Proof.
  induction h as [|o' h IH]; [destruct i; discriminate|]. intros H K.
  pose proof (get_bound _ _ _ H) as B. cbn [List.length] in B. cbn [num_channels channels].
  destruct (Nat.eqb_spec i (List.length h)) as [->|Hne].
  - rewrite get_top in H. injection H as ->. destruct (o_kind o); try destruct K; auto.
  - rewrite get_low in H by lia. now apply IH.
Qed.
Lemma own_number h i o n : get_obj h i = Some o -> o_num o = Some n -> num_channels h i = Some n.
Proof.
  induction h as [|o' h IH]; [destruct i; discriminate|]. intros H K.
  pose proof (get_bound _ _ _ H) as B. cbn [List.length] in B. cbn [num_channels].
  destruct (Nat.eqb_spec i (List.length h)) as [->|Hne].
  - rewrite get_top in H. injection H as ->. rewrite K. destruct (o_kind o); auto.
  - rewrite get_low in H by lia. now apply IH.
Qed.

(** A number given as channels, on loading, for missing data or by assignment, is what
    num_channels then says, whatever came before; images that are not views have no names
    then. *)
Theorem C134_number : forall ops c n, integer c n -> let h := after ops in
  (forall src d h', hstep h (HLoad src (Some c) d) = Ok h' ->
     num_channels h' (List.length h) = Some n /\ channels h' (List.length h) = None) /\
  (forall d h', hstep h (HNans d (Some c)) = Ok h' ->
     num_channels h' (List.length h) = Some n /\ channels h' (List.length h) = None) /\
  (forall i h', hstep h (HSet i (Some c)) = Ok h' ->
     num_channels h' i = Some n /\
     (forall o, get_obj h i = Some o -> (forall s, o_kind o <> KView s) -> channels h' i = None)).
Proof.
  intros ops c n Hc h. cbn [hstep]. rewrite (integer_meta c n Hc). cbn [bind]. split; [|split].
  - intros src d h' [= <-]. cbn. now rewrite Nat.eqb_refl.
  - intros d h' [= <-]. cbn. now rewrite Nat.eqb_refl.
  - intros i h' H. destruct (get_obj h i) as [o|] eqn:E; [|discriminate].
    set (g := fun o => mkO (o_kind o) None (Some n) (o_size o) (o_overviews o)) in *.
    assert (H' : h' = update (Nat.eqb i) g h /\ forall ps, o_kind o <> KConcat ps).
    { destruct o as [[] ? ? ? ?]; cbn [o_kind]; try discriminate; injection H as <-; split; try reflexivity; discriminate. }
    destruct H' as (-> & Hk).
    assert (G : get_obj (update (Nat.eqb i) g h) i = Some (g o)).
    { rewrite update_top by now apply get_bound in E. rewrite E. cbn. now rewrite Nat.eqb_refl. }
    split; [now apply (own_number _ _ (g o))|]. intros o' [= <-] Hv.
    destruct (leaf_meta _ _ _ G) as (_ & ->); [|reflexivity]. cbn [g o_kind].
    destruct (o_kind o) as [| | |s|ps]; try exact I; [now destruct (Hv s)|now destruct (Hk ps)].
Qed.
Print Assumptions C134_number.
Example C134_case :
  let h := after [HLoad (SGdal 4 4 3 0) (Some (DStr "r|g|b")) None; HWarp 0 false 4 4] in
  integer (DBool true) 1 /\
  (exists h', hstep h (HSet 0 (Some (DBool true))) = Ok h' /\ num_channels h' 0 = Some 1 /\ num_channels h' 1 = Some 1 /\ channels h' 1 = None).
Proof. split; [constructor|]. eexists. repeat split; vm_compute; reflexivity. Qed.

(* A bool is coerced as the number it is. *)
Theorem C134_coerce : forall c n, integer c n ->
  chan_coerce c = chan_coerce (DInt n) /\ coerce_fresh c = coerce_fresh (DInt n) /\ sensor_coerce (SData c) = sensor_coerce (SData (DInt n)).
Proof. now intros c n []. Qed.
Print Assumptions C134_coerce.
