(* Lemmas on metadata histories. *)
From Verif Require Import PyProofs ChanProofs ChanStreamProofs ChanSetProofs HistModel HistSpec.
Local Open Scope Z_scope.

Lemma counts_fun f n m : counts f n -> counts f m -> n = m.
Proof.
  intros (a & (la & Fa & ->) & ->) (b & (lb & Fb & ->) & ->). assert (la = lb); [|now subst].
  revert lb Fb. induction Fa as [|c x cs xs H _ IH]; intros lb Fb; inversion Fb; subst; [reflexivity|]. f_equal; [eapply denotes_functional; eassumption|auto].
Qed.

Lemma counts_nil : counts (fconcat []) 0.
Proof. exists []. split; [|reflexivity]. exists []. split; [constructor|reflexivity]. Qed.
Lemma counts_app f g n m : counts f n -> counts g m -> counts (fconcat [f; g]) (n + m).
Proof.
  intros (a & Ha & ->) (b & Hb & ->). exists (a ++ b)%list. split; [|rewrite app_length; lia].
  unfold fconcat. cbn [map List.concat codes]. rewrite app_nil_r. now apply denotes_all_app.
Qed.
Lemma counts_app_inv f g n : counts (fconcat [f; g]) n -> exists a b, counts f a /\ counts g b /\ n = a + b.
Proof.
  intros (c & Hc & ->). unfold fconcat in Hc. cbn [map List.concat codes] in Hc. rewrite app_nil_r in Hc.
  apply denotes_all_app_inv in Hc as (a & b & -> & Ha & Hb). exists (Z.of_nat (List.length a)), (Z.of_nat (List.length b)).
  split; [exists a; auto|]. split; [exists b; auto|]. rewrite app_length. lia.
Qed.

Lemma coerce_good d f : good_data (Some d) -> coerce_fresh d = Ok f -> good f.
Proof.
  intros Hg. destruct d; unfold coerce_fresh, coerce; cbn [key_of memo_get fst snd]; try discriminate; try (intros [= <-]; intros K; discriminate).
  - unfold from_spec. cbn. intros [= <-]. unfold fparse. destruct (String.eqb s ""); intros K; discriminate.
  - intros [= <-]. exact Hg.
  - destruct (cparse c) as [|[k g] [|? ?]]; cbn [fst]; try discriminate. intros E. injection E as <-. intros K. discriminate.
Qed.

Lemma set_meta_ok d f n : good_data d -> set_meta d = Ok (Some f, n) -> good f /\ exists m, n = Some m /\ counts f m.
Proof.
  intros Hg H. unfold set_meta in H.
  assert (G : forall d', good_data (Some d') -> (f <- coerce_fresh d' ;; nf <- normalize f ;; n <- numel nf ;; Ok (Some f, Some n)) = Ok (Some f, n) ->
    good f /\ exists m, n = Some m /\ counts f m).
  { intros d' Hg' H'. apply bind_ok in H' as (f' & Hf & H'). apply bind_ok in H' as (nf & Hn & H'). apply bind_ok in H' as (m & Hm & H').
    injection H' as <- <-. pose proof (coerce_good _ _ Hg' Hf) as Gf. split; [exact Gf|]. exists m. split; [reflexivity|].
    pose proof (normalize_names_inv _ _ Gf Hn) as Hd. exists (codes nf). split; [exact Hd|].
    unfold numel in Hm. rewrite (normalize_flag _ _ Hn) in Hm. now injection Hm as <-. }
  destruct d as [[]|]; try discriminate; apply (G _ Hg H).
Qed.

(** ** Queries *)
Fixpoint all_names (h : heap) (ps : list nat) : option fused :=
  match ps with
  | [] => Some (fconcat [])
  | p :: ps' => match channels h p, all_names h ps' with
                | Some f, Some r => Some (fconcat [f; r])
                | _, _ => None
                end
  end.

Lemma channels_top o h : channels (o :: h) (List.length h) =
  match o_kind o with
  | KConcat ps => all_names h ps
  | KView s => match o_names o with Some f => Some f | None => channels h s end
  | _ => o_names o
  end.
Proof.
  cbn [channels]. rewrite Nat.eqb_refl. destruct (o_kind o); try reflexivity.
  induction parts as [|p ps IH]; [reflexivity|]. cbn [all_names]. now rewrite <- IH.
Qed.
Lemma channels_low o h i : (i < List.length h)%nat -> channels (o :: h) i = channels h i.
Proof. intros H. cbn [channels]. now rewrite (proj2 (Nat.eqb_neq _ _)) by lia. Qed.
Lemma channels_out h : forall i, (List.length h <= i)%nat -> channels h i = None.
Proof.
  induction h as [|o h IH]; intros i H; [reflexivity|]. cbn [List.length] in H. cbn [channels].
  rewrite (proj2 (Nat.eqb_neq _ _)) by lia. apply IH. lia.
Qed.
Lemma num_top o h : num_channels (o :: h) (List.length h) =
  match o_kind o, o_num o with KView s, None => num_channels h s | _, n => n end.
Proof. cbn [num_channels]. now rewrite Nat.eqb_refl. Qed.
Lemma num_low o h i : (i < List.length h)%nat -> num_channels (o :: h) i = num_channels h i.
Proof. intros H. cbn [num_channels]. now rewrite (proj2 (Nat.eqb_neq _ _)) by lia. Qed.

Lemma update_length p g h : List.length (update p g h) = List.length h.
Proof. induction h as [|o h IH]; [reflexivity|]. cbn. now rewrite IH. Qed.

(** ** The invariant *)
Definition local (o : obj) (h : heap) : Prop :=
  (forall f, o_names o = Some f -> good f /\ exists n, o_num o = Some n /\ counts f n) /\
  match o_kind o with
  | KView s => (s < List.length h)%nat /\ forall f n, o_names o = None -> o_num o = Some n -> channels h s = Some f -> counts f n
  | KConcat ps => Forall (fun p => p < List.length h)%nat ps /\
      forall f, all_names h ps = Some f -> exists n, o_num o = Some n /\ counts f n
  | _ => True
  end.
Fixpoint inv (h : heap) : Prop := match h with [] => True | o :: h' => local o h' /\ inv h' end.

Lemma inv_counts h : inv h -> forall i f, channels h i = Some f -> exists n, num_channels h i = Some n /\ counts f n.
Proof.
  induction h as [|o h IH]; intros Hi i f Hc; [discriminate|]. destruct Hi as ((L1 & L2) & Hi).
  destruct (Nat.eq_dec i (List.length h)) as [-> | Ne].
  - rewrite channels_top in Hc. rewrite num_top. destruct (o_kind o) as [| | |s|ps]; try (destruct (L1 _ Hc) as (_ & n & -> & Cn); eauto; fail).
    + destruct (o_names o) as [g|] eqn:En.
      * injection Hc as ->. destruct (L1 _ eq_refl) as (_ & n & -> & Cn). eauto.
      * destruct L2 as (_ & L2). destruct (o_num o) as [n|]; [|now apply IH]. exists n. split; [reflexivity|]. now apply (L2 f n).
    + destruct L2 as (_ & L2). destruct (L2 _ Hc) as (n & -> & Cn). eauto.
  - destruct (Nat.lt_ge_cases i (List.length h)) as [Lt | Ge].
    + rewrite channels_low in Hc by assumption. rewrite num_low by assumption. now apply IH.
    + rewrite channels_out in Hc; [discriminate|cbn; lia].
Qed.

Lemma inv_good h : inv h -> forall i f, channels h i = Some f -> good f.
Proof.
  induction h as [|o h IH]; intros Hi i f Hc; [discriminate|]. destruct Hi as ((L1 & L2) & Hi).
  destruct (Nat.eq_dec i (List.length h)) as [-> | Ne].
  - rewrite channels_top in Hc. destruct (o_kind o) as [| | |s|ps]; try (now apply L1).
    + destruct (o_names o) as [g|] eqn:En; [injection Hc as ->; now apply L1|]. eapply IH; eassumption.
    + destruct ps as [|p ps]; cbn in Hc; [injection Hc as <-; intros K; discriminate|].
      destruct (channels h p), (all_names h ps); try discriminate. injection Hc as <-. intros K; discriminate.
  - destruct (Nat.lt_ge_cases i (List.length h)) as [Lt | Ge].
    + rewrite channels_low in Hc by assumption. eapply IH; eassumption.
    + rewrite channels_out in Hc; [discriminate|cbn; lia].
Qed.

(** ** Changing objects *)
(* the images in use have no new names, or names for as many channels as before *)
Definition steady (R : nat -> Prop) (h h' : heap) : Prop :=
  List.length h' = List.length h /\
  (forall i f', R i -> channels h' i = Some f' -> exists f n, channels h i = Some f /\ counts f n /\ counts f' n).

Lemma steady_names R h h' ps : steady R h h' -> (forall p, In p ps -> R p) ->
  forall f', all_names h' ps = Some f' -> exists f n, all_names h ps = Some f /\ counts f n /\ counts f' n.
Proof.
  intros (_ & S) HR. induction ps as [|p ps IHp]; cbn [all_names]; intros f' E.
  - injection E as <-. exists (fconcat []), 0. split; [reflexivity|]. split; apply counts_nil.
  - destruct (channels h' p) as [f0|] eqn:E0; [|discriminate]. destruct (all_names h' ps) as [r|]; [|discriminate]. injection E as <-.
    destruct (S p f0 (HR p (or_introl eq_refl)) E0) as (g & n & -> & C1 & C2).
    destruct (IHp (fun q Hq => HR q (or_intror Hq)) r eq_refl) as (g' & m & -> & D1 & D2).
    exists (fconcat [g; g']), (n + m). split; [reflexivity|]. split; now apply counts_app.
Qed.
Lemma steady_local R h h' o : steady R h h' -> (forall p, refers o p -> R p) -> local o h -> local o h'.
Proof.
  intros S HR (L1 & L2). split; [exact L1|]. destruct (o_kind o) as [| | |s|ps] eqn:Ek; try exact I.
  - destruct L2 as (L2 & L3). pose proof S as (Len & S2). split; [now rewrite Len|]. intros f n A B C.
    destruct (S2 s f) as (g & m & Eg & Cg & Cf); [apply HR; unfold refers; now rewrite Ek|exact C|].
    pose proof (L3 g n A B Eg) as D. now rewrite (counts_fun _ _ _ D Cg).
  - destruct L2 as (L2 & L3). pose proof S as (Len & _). split; [now rewrite Len|]. intros f' E'.
    destruct (steady_names R h h' ps S) with (f' := f') as (f & n & E & C & C'); [intros p Hp; apply HR; unfold refers; now rewrite Ek|exact E'|].
    destruct (L3 _ E) as (m & Em & Cm). exists m. split; [exact Em|]. now rewrite (counts_fun _ _ _ Cm C).
Qed.
Lemma steady_cons R h h' o : steady R h h' -> (forall p, refers o p -> R p) -> local o h -> steady R (o :: h) (o :: h').
Proof.
  intros S HR L. pose proof S as (Len & S1). split; [cbn; now rewrite Len|]. intros i f Ri E.
  destruct (Nat.eq_dec i (List.length h)) as [-> | Ne].
  - rewrite channels_top. rewrite <- Len, channels_top in E. destruct L as (L1 & L2).
    destruct (o_kind o) as [| | |s|ps] eqn:Ek.
    1,2,3: destruct (L1 _ E) as (_ & n & _ & Cn); exists f, n; auto.
    + destruct (o_names o) as [g|] eqn:En.
      * injection E as ->. destruct (L1 _ eq_refl) as (_ & n & _ & Cn). exists f, n. auto.
      * apply S1; [apply HR; unfold refers; now rewrite Ek|exact E].
    + apply (steady_names R h h' ps S); [intros p Hp; apply HR; unfold refers; now rewrite Ek|exact E].
  - destruct (Nat.lt_ge_cases i (List.length h)) as [Lt | Ge].
    + rewrite channels_low in E by (rewrite Len; assumption). rewrite channels_low by assumption. now apply S1.
    + rewrite channels_out in E; [discriminate|cbn; rewrite Len; lia].
Qed.
Lemma steady_refl R h : inv h -> steady R h h.
Proof.
  intros Hi. split; [reflexivity|]. intros i f _ E. destruct (inv_counts h Hi i f E) as (n & _ & C). eauto.
Qed.

(* naming one object *)
Definition rename (i : nat) (f : option fused) (n : option Z) : heap -> heap :=
  update (Nat.eqb i) (fun o => mkO (o_kind o) f n (o_size o) (o_overviews o)).

Lemma rename_high i f n h : (List.length h <= i)%nat -> rename i f n h = h.
Proof.
  unfold rename. induction h as [|o h IH]; intros H; [reflexivity|]. cbn [update List.length] in *.
  rewrite (proj2 (Nat.eqb_neq _ _)) by lia. now rewrite IH by lia.
Qed.

Lemma get_top o h : get_obj (o :: h) (List.length h) = Some o.
Proof. unfold get_obj. cbn [rev]. rewrite nth_error_app2 by (rewrite rev_length; lia). now rewrite rev_length, Nat.sub_diag. Qed.
Lemma get_low o h i : (i < List.length h)%nat -> get_obj (o :: h) i = get_obj h i.
Proof. intros H. unfold get_obj. cbn [rev]. rewrite nth_error_app1; [reflexivity|]. now rewrite rev_length. Qed.
Lemma get_bound h i o : get_obj h i = Some o -> (i < List.length h)%nat.
Proof. intros H. rewrite <- rev_length. apply nth_error_Some. unfold get_obj in H. congruence. Qed.
Lemma inv_low h i o s : inv h -> get_obj h i = Some o -> refers o s -> (s < i)%nat.
Proof.
  induction h as [|o' h IH]; intros Hi E Hs; [destruct i; discriminate|]. destruct Hi as ((_ & L) & Hi).
  destruct (Nat.eq_dec i (List.length h)) as [-> | Ne].
  - rewrite get_top in E. injection E as ->. unfold refers in Hs. destruct (o_kind o); try contradiction; [subst; apply L|].
    destruct L as (L & _). rewrite Forall_forall in L. now apply L.
  - pose proof (get_bound _ _ _ E) as B. cbn in B. rewrite get_low in E by lia. now apply IH.
Qed.

Lemma rename_inv (R : nat -> Prop) i f n h o0 : inv h -> get_obj h i = Some o0 ->
  match o_kind o0 with KConcat _ => False | _ => True end ->
  (forall g, f = Some g -> good g /\ exists m, n = Some m /\ counts g m) ->
  (forall g, channels (rename i f n h) i = Some g ->
     (exists m, num_channels (rename i f n h) i = Some m /\ counts g m) /\
     (R i -> exists f0 m, channels h i = Some f0 /\ counts f0 m /\ counts g m)) ->
  (forall o, In o h -> forall p, refers o p -> R p) ->
  inv (rename i f n h) /\ steady R h (rename i f n h).
Proof.
  intros Hi G Hk Hf. induction h as [|o h IH]; intros Hs HR; [destruct i; discriminate|].
  pose proof Hi as Hi0. destruct Hi as (Lo & Hi).
  assert (HR' : forall o', In o' h -> forall p, refers o' p -> R p) by (intros o' Ho'; apply HR; now right).
  assert (Ho : forall p, refers o p -> R p) by (apply HR; now left).
  unfold rename in *. cbn [update] in *. fold (rename i f n h) in *.
  destruct (Nat.eqb_spec i (List.length h)) as [-> | Ne].
  - rewrite (rename_high _ _ _ h) in * by lia. rewrite get_top in G. injection G as <-.
    set (o' := mkO (o_kind o) f n (o_size o) (o_overviews o)) in *.
    assert (Lo' : local o' h).
    { destruct Lo as (L1 & L2). split; [cbn; intros f0 E0; destruct (Hf _ E0) as (A & m & B & C); eauto|].
      cbn. rewrite channels_top, num_top in Hs. cbn in Hs. destruct (o_kind o) as [| | |s|ps]; try exact I; [|destruct Hk].
      destruct L2 as (L2 & _). split; [exact L2|]. intros g m Ef En Ec. rewrite Ef, En in Hs. destruct (Hs g Ec) as ((m' & [= <-] & C) & _). exact C. }
    split; [split; assumption|]. split; [reflexivity|].
    intros j g Rj E. destruct (Nat.eq_dec j (List.length h)) as [-> | Nj]; [destruct (Hs g E) as (_ & K); now apply K|].
    destruct (Nat.lt_ge_cases j (List.length h)) as [Lt | Ge].
    + rewrite channels_low in * by assumption. destruct (inv_counts h Hi _ _ E) as (m & _ & Cm). eauto.
    + rewrite channels_out in E; [discriminate|cbn; lia].
  - pose proof (get_bound _ _ _ G) as B. cbn [List.length] in B. assert (Lt : (i < List.length h)%nat) by lia.
    assert (Lt' : (i < List.length (rename i f n h))%nat) by (unfold rename; now rewrite update_length).
    rewrite get_low in G by exact Lt. rewrite num_low, !channels_low in Hs by assumption.
    destruct (IH Hi G Hs HR') as (I1 & I2).
    split; [split; [apply (steady_local R h); assumption|exact I1]|]. now apply steady_cons.
Qed.

(* preparing objects *)
Lemma prepare_names o : o_names (prepare_obj o) = o_names o /\ o_kind (prepare_obj o) = o_kind o.
Proof. unfold prepare_obj. destruct (o_kind o) eqn:E; cbn; auto. Qed.
Lemma prepare_channels p h : forall i, channels (update p prepare_obj h) i = channels h i.
Proof.
  induction h as [|o h IH]; intros i; [reflexivity|]. cbn [update].
  set (o' := if p (List.length h) then prepare_obj o else o).
  assert (E : o_names o' = o_names o /\ o_kind o' = o_kind o) by (unfold o'; destruct (p (List.length h)); [apply prepare_names|auto]).
  assert (A : forall ps, all_names (update p prepare_obj h) ps = all_names h ps).
  { induction ps as [|q ps IHp]; [reflexivity|]. cbn [all_names]. now rewrite IH, IHp. }
  destruct (Nat.eq_dec i (List.length h)) as [-> | Ne].
  - rewrite channels_top. rewrite <- (update_length p prepare_obj h), channels_top. destruct E as (-> & ->).
    destruct (o_kind o); try reflexivity; [now rewrite IH|now rewrite A].
  - destruct (Nat.lt_ge_cases i (List.length h)) as [Lt | Ge].
    + rewrite !channels_low by (rewrite ?update_length; assumption). apply IH.
    + rewrite !channels_out; [reflexivity|cbn; lia|cbn; rewrite update_length; lia].
Qed.
Lemma load_keeps src d n ov : m_channels (load_metadata src (mkM d (Some n) ov)) = Some n.
Proof. unfold load_metadata. cbn [m_dsize m_channels m_overviews]. destruct (_ && _)%bool; [reflexivity|]. destruct src as [? ? ? ?|? ? []]; reflexivity. Qed.
Lemma prepare_inv p h : inv h -> inv (update p prepare_obj h).
Proof.
  induction h as [|o h IH]; intros Hi; [exact I|]. destruct Hi as ((L1 & L2) & Hi). cbn [update]. split; [|now apply IH].
  set (o' := if p (List.length h) then prepare_obj o else o).
  assert (A : forall ps, all_names (update p prepare_obj h) ps = all_names h ps).
  { induction ps as [|q ps IHp]; [reflexivity|]. cbn [all_names]. now rewrite prepare_channels, IHp. }
  assert (E : o_names o' = o_names o /\ o_kind o' = o_kind o /\
     (forall n, o_num o = Some n -> o_num o' = Some n) /\ (match o_kind o with KLoad _ => True | _ => o_num o' = o_num o end)).
  { unfold o'. destruct (p (List.length h)); [|destruct (o_kind o); auto]. unfold prepare_obj. destruct (o_kind o) eqn:Ek; cbn; auto.
    split; [reflexivity|]. split; [congruence|]. split; [|exact I]. intros n ->. apply load_keeps. }
  destruct E as (E1 & E2 & E3 & E4). split.
  - rewrite E1. intros f Ef. destruct (L1 f Ef) as (G & n & En & C). split; [exact G|]. exists n. auto.
  - rewrite E2. destruct (o_kind o) as [| | |s|ps]; try exact I.
    + rewrite update_length, E1, E4, prepare_channels. exact L2.
    + rewrite update_length. destruct L2 as (L2 & L3). split; [exact L2|]. intros f Hf. rewrite A in Hf. rewrite E4. now apply L3.
Qed.
