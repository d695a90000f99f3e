(* When concise succeeds and what it makes of the codes; how many channels a spec
   with repeated streams counts. *)
From Verif Require Import PyProofs ChanModel ChanSpec ChanProofs ChanSetProofs ChanStreamProofs.
From Coq Require Import Permutation Lia.
Local Open Scope string_scope.

Lemma split_two sep s a b : split sep s = [a; b] ->
  s = a ++ String sep b /\ contains sep a = false /\ contains sep b = false.
Proof.
  revert a b. induction s as [|x s IH]; intros a b H; [discriminate|].
  cbn in H. destruct (Ascii.eqb x sep) eqn:E.
  - injection H as <- H. apply Ascii.eqb_eq in E. subst x. cbn [append contains].
    assert (Hb : split sep s = [b]) by exact H. clear IH H.
    assert (G : forall t u, split sep t = [u] -> t = u /\ contains sep u = false).
    { induction t as [|y t IHt]; intros u H; cbn in H; [injection H as <-; auto|].
      destruct (Ascii.eqb y sep) eqn:Ey.
      - injection H as _ H. destruct t; cbn in H; [discriminate|]. destruct (Ascii.eqb a sep); [discriminate|]. destruct (split sep t); discriminate.
      - destruct (split sep t) as [|u' r] eqn:Et; [injection H as <-|injection H as <- ->].
        + exfalso. destruct t; cbn in Et; [discriminate|]. destruct (Ascii.eqb a sep); [discriminate|]. destruct (split sep t); discriminate.
        + destruct (IHt _ eq_refl) as [-> Hc]. split; [reflexivity|]. cbn. now rewrite Ey. }
    destruct (G _ _ Hb) as [-> Hc]. auto.
  - destruct (split sep s) as [|u r] eqn:Es; [discriminate|]. injection H as <- ->.
    destruct (IH _ _ eq_refl) as (-> & H1 & H2). split; [reflexivity|]. cbn. now rewrite E.
Qed.

Lemma plainly_step st c c' : plainly c c' -> concise_step st c = concise_step st c'.
Proof.
  intros [[_ ->]|(root & lit & i & Hr & Hl & -> & Hi & ->)]; [reflexivity|].
  assert (E : forall l z, contains "." l = false -> int_lit l z ->
    contains "." (root ++ String "." l) = true /\ split "." (root ++ String "." l) = [root; l] /\ py_int l = Ok z).
  { intros l z Hc H. split; [rewrite contains_app; cbn; apply orb_true_r|]. split; [|exact H].
    rewrite split_app by assumption. now rewrite split_no_sep. }
  destruct (E lit i Hl Hi) as (E1 & E2 & E3).
  destruct (E (Z_str i) i) as (F1 & F2 & F3); [apply Z_str_no; [reflexivity|discriminate]|apply py_int_Z_str|].
  unfold concise_step. now rewrite E1, E2, E3, F1, F2, F3.
Qed.

Lemma plainly_loop l l' : Forall2 plainly l l' -> forall st, concise_loop st l = concise_loop st l'.
Proof.
  induction 1 as [|c c' l l' Hc H IH]; intros st; [reflexivity|]. cbn [concise_loop].
  rewrite (plainly_step _ _ _ Hc). destruct (concise_step st c'); cbn; [apply IH|reflexivity].
Qed.

Lemma plainly_canonical c c' : plainly c c' -> canonical c'.
Proof.
  intros [[H ->]|(root & lit & i & Hr & _ & _ & _ & ->)]; [now left|right]. eauto.
Qed.

Lemma plainly_atomic c c' : plainly c c' -> atomic c -> atomic c'.
Proof.
  intros [[H ->]|(root & lit & i & Hr & _ & -> & _ & ->)]; [auto|]. intros [_ H].
  apply indexed_atomic. rewrite contains_app in H. now apply orb_false_iff in H as [H _].
Qed.

Lemma step_plainly st c st' : concise_step st c = Ok st' -> exists c', plainly c c'.
Proof.
  unfold concise_step. destruct st as [acc out]. destruct (contains "." c) eqn:Hd; [|exists c; now left].
  destruct (split "." c) as [|root [|lit [|? ?]]] eqn:E; try discriminate. intros H.
  apply bind_ok in H as (i & Hi & _). apply split_two in E as (-> & H1 & H2).
  eexists. right. exists root, lit, i. repeat split; assumption.
Qed.

Lemma loop_plainly l : forall st st', concise_loop st l = Ok st' -> exists l', Forall2 plainly l l'.
Proof.
  induction l as [|c l IH]; intros st st' H; [exists []; constructor|].
  cbn in H. apply bind_ok in H as (s1 & H1 & H2). apply step_plainly in H1 as (c' & Hc).
  apply IH in H2 as (l' & Hl). exists (c' :: l'). now constructor.
Qed.

Lemma plainly_all l : Forall (fun c => exists c', plainly c c') l -> exists l', Forall2 plainly l l'.
Proof.
  induction 1 as [|c l (c' & Hc) _ (l' & Hl)]; [exists []; constructor|]. exists (c' :: l'). now constructor.
Qed.

Lemma concise_plain f n : good f -> normalize f = Ok n -> forall l', Forall2 plainly (codes n) l' ->
  exists g, concise f = Ok g /\ normalize g = Ok (mkF l' true).
Proof.
  intros Hg Hn l' Hl. pose proof (normalize_atomic _ _ Hg Hn) as Hat.
  assert (Ha : Forall atomic l').
  { clear -Hl Hat. induction Hl as [|c c' l l' Hc Hl IH]; [constructor|]. inversion Hat; subst.
    constructor; [eapply plainly_atomic; eassumption|auto]. }
  assert (Hc : Forall canonical l').
  { clear -Hl. induction Hl; constructor; eauto using plainly_canonical. }
  destruct (concise_roundtrip (mkF l' true) (mkF l' true)) as (g & E & N); [intros _; exact Ha|reflexivity|exact Hc|].
  exists g. split; [|exact N]. revert E. unfold concise. rewrite Hn. cbn [normalize isnorm bind codes].
  now rewrite (plainly_loop _ _ Hl).
Qed.

Lemma concise_exactly f n : good f -> normalize f = Ok n ->
  ((exists g, concise f = Ok g) <-> Forall (fun c => exists c', plainly c c') (codes n)) /\
  (forall g, concise f = Ok g -> exists n', normalize g = Ok n' /\ Forall2 plainly (codes n) (codes n')) /\
  (forall e, concise f = Err e -> e = ValueError).
Proof.
  intros Hg Hn.
  assert (Hex : forall g, concise f = Ok g -> exists l', Forall2 plainly (codes n) l').
  { intros g H. unfold concise in H. rewrite Hn in H. cbn [bind] in H. apply bind_ok in H as (st & Hl & _).
    eapply loop_plainly; exact Hl. }
  split; [split|split].
  - intros (g & H). apply Hex in H as (l' & H). clear -H. induction H; constructor; eauto.
  - intros H. apply plainly_all in H as (l' & H). destruct (concise_plain f n Hg Hn l' H) as (g & E & _). eauto.
  - intros g H. destruct (Hex g H) as (l' & Hl). destruct (concise_plain f n Hg Hn l' Hl) as (g' & E & N).
    replace g with g' by congruence. exists (mkF l' true). auto.
  - intros e H. unfold concise in H. rewrite Hn in H. cbn [bind] in H.
    assert (G : forall l st e, concise_loop st l = Err e -> e = ValueError).
    { clear. induction l as [|c l IH]; intros st e H; [discriminate|]. cbn in H.
      destruct (concise_step st c) as [s1|e1] eqn:E; cbn in H; [eapply IH; exact H|]. injection H as <-.
      unfold concise_step in E. destruct st as [acc out]. destruct (contains "." c).
      - destruct (split "." c) as [|r [|lit [|? ?]]]; try congruence.
        destruct (py_int lit) as [i|e2] eqn:Ei; cbn in E.
        + destruct acc as [[[? ?] ?]|]; [|discriminate]. destruct (_ && _)%bool; discriminate.
        + injection E as <-. unfold py_int in Ei. clear -Ei.
          repeat match type of Ei with context [match ?x with _ => _ end] => destruct x; try congruence end.
      - destruct acc as [[[? ?] ?]|]; discriminate. }
    destruct (concise_loop (None, []) (codes n)) as [[[[[? ?] ?]|] ?]|e1] eqn:E; cbn in H; try discriminate.
    injection H as <-. eapply G; exact E.
Qed.

(** ** numel with repeated streams *)

Lemma denotes_each l names : denotes_all (List.concat l) names ->
  exists ns, Forall2 denotes_all l ns /\ names = List.concat ns.
Proof.
  revert names. induction l as [|c l IH]; intros names (ls & H & ->).
  - cbn in H. inversion H. exists []. split; [constructor|reflexivity].
  - cbn [List.concat] in H. apply Forall2_app_inv_l in H as (l1 & l2 & H1 & H2 & ->).
    destruct (IH (List.concat l2)) as (ns & Hn & E); [exists l2; auto|].
    exists (List.concat l1 :: ns). split; [constructor; [exists l1; auto|exact Hn]|].
    cbn. now rewrite concat_app, E.
Qed.

Lemma denotes_join l ns : Forall2 denotes_all l ns -> denotes_all (List.concat l) (List.concat ns).
Proof.
  induction 1 as [|c n l ns (ls & H & ->) Hl (ls' & H' & E)]; [exists []; split; [constructor|reflexivity]|].
  exists (ls ++ ls')%list. cbn. split; [now apply Forall2_app|]. now rewrite concat_app, E.
Qed.

Lemma denotes_perm l l' : Permutation l l' -> forall names, denotes_all (List.concat l) names ->
  exists names', denotes_all (List.concat l') names' /\ List.length names' = List.length names.
Proof.
  intros Hp names H. apply denotes_each in H as (ns & H & ->).
  revert ns H. induction Hp as [|x l l' Hp IH|x y l|l1 l2 l3 H1 IH1 H2 IH2]; intros ns H.
  - inversion H; subst. exists []. split; [exists []; split; [constructor|reflexivity]|reflexivity].
  - inversion H as [|? n ? ns' Hx Hl]; subst. destruct (IH _ Hl) as (nm & Hn & En).
    exists (n ++ nm)%list. cbn. rewrite !app_length, En. split; [|reflexivity].
    apply denotes_each in Hn as (q & Hq & ->). apply (denotes_join (x :: l') (n :: q)). now constructor.
  - inversion H as [|? n ? ns' Hx Hl]; subst. inversion Hl as [|? n2 ? ns2 Hy Hr]; subst.
    exists (List.concat (n2 :: n :: ns2)). split; [apply denotes_join; now repeat constructor|].
    cbn. rewrite !app_length. lia.
  - destruct (IH1 _ H) as (nm & Hn & En). apply denotes_each in Hn as (q & Hq & ->).
    destruct (IH2 _ Hq) as (nm' & Hn' & En'). exists nm'. split; [exact Hn'|congruence].
Qed.

Lemma parse_text_each s :
  NoDup (map (fun kv => codes (snd kv)) (parse_text s)) /\
  forall l, In l (map (fun kv => codes (snd kv)) (parse_text s)) <-> In l (read_streams s).
Proof.
  assert (E : map (fun kv => codes (snd kv)) (parse_text s) = map (split "|") (map fst (parse_text s))).
  { rewrite map_map. apply map_ext_in. intros [k f] H. apply parse_text_In in H as [_ ->]. reflexivity. }
  split.
  - rewrite E. apply FinFun.Injective_map_NoDup; [|apply parse_text_NoDup].
    intros x y H. rewrite <- (join_split "|" x), <- (join_split "|" y). now rewrite H.
  - intros l. rewrite E, read_streams_alt, !in_map_iff. split; intros (k & Hk & H); exists k; split; auto.
    + apply in_map_iff in H as ([k' f] & <- & H). apply parse_text_In in H as [H _]. exact H.
    + apply in_map_iff. exists (k, mkF (split "|" k) false). split; [reflexivity|]. apply parse_text_In. auto.
Qed.

Lemma cnumel_distinct s U names : NoDup U -> (forall x, In x U <-> In x (read_streams s)) ->
  denotes_all (List.concat U) names -> cnumel (mkC s None) = Ok (Z.of_nat (List.length names)).
Proof.
  intros Hnd HU H. destruct (parse_text_each s) as [Hd Hs].
  assert (Hp : Permutation U (map (fun kv => codes (snd kv)) (parse_text s))).
  { apply NoDup_Permutation; [assumption..|]. intros x. now rewrite HU, Hs. }
  destruct (denotes_perm _ _ Hp _ H) as (names' & H' & <-). clear H Hp Hd Hs HU Hnd names.
  unfold cnumel, csizes. change (cparse (mkC s None)) with (parse_text s).
  assert (Hg : forall k f, In (k, f) (parse_text s) -> good f) by (intros k f Hk; eapply parse_text_good; exact Hk).
  revert names' H'. induction (parse_text s) as [|[k f] p IH]; intros names H.
  - destruct H as (ls & H & ->). inversion H; subst. reflexivity.
  - cbn [map List.concat snd] in H. apply denotes_all_app_inv in H as (x & y & -> & Hx & Hy).
    specialize (IH ltac:(intros k' f' Hk; apply (Hg k'); now right) y Hy).
    cbn [mapR snd]. rewrite (numel_names f x) by (assumption || (apply (Hg k); now left)). cbn [bind].
    destruct (mapR (fun kv : string * fused => numel (snd kv)) p) as [zs|e]; cbn [bind] in IH |- *; [|discriminate].
    injection IH as IH. cbn [zsum fold_right]. unfold zsum in IH. rewrite IH, app_length. f_equal. lia.
Qed.
