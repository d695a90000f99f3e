(* C124 nesting, C125 as_graph *)
From Verif Require Import PyProofs ChanSpec ChanProofs ChanProps TreeSpec TreeProofs NestModel.
From Verif Require TreeProps.
Local Open Scope Z_scope.

Section Nest.
Context {T C A : Type} (tconcise : T -> C) (basename : string -> string).

(* the names of a node, in the metadata *)
Definition names_of (m : mdict T C A) : option fused :=
  match dict_get "channels" m with Some (MChannels f) => Some f | _ => None end.

(* the description of the value of a key: transforms and names are abbreviated, and
   names keep their meaning but for the way numbers are written *)
Definition describes (k : string) (v w : mval T C A) : Prop :=
  match v with
  | MTransform t => if String.eqb k "transform" then w = MDict (tconcise t) else w = v
  | MChannels f => if String.eqb k "channels" then
      exists g n n', w = MText (fspec g) /\ normalize f = Ok n /\ normalize g = Ok n' /\ Forall2 plainly (codes n) (codes n')
      else w = v
  | _ => w = v
  end.

(* an item describes a node when type, settings and children do, in order *)
Inductive mirrors (st : nat -> mdict T C A) : tree -> item T C A -> Prop :=
| Mirrors t m kids :
    Forall2 (fun kv kw => fst kv = fst kw /\ describes (fst kv) (snd kv) (snd kw)) (st (n_meta (label_of t))) m ->
    Forall2 (mirrors st) (children t) kids ->
    mirrors st t (Item (n_class (label_of t)) m kids).

(* metadata as the constructors make it *)
Definition well_kept (m : mdict T C A) : Prop :=
  NoDup (map fst m) /\ forall f, names_of m = Some f -> good f /\ exists n, normalize f = Ok n.

(* every name is a word, or a word and a number *)
Definition plain_names (m : mdict T C A) : Prop :=
  forall f n, names_of m = Some f -> normalize f = Ok n -> Forall (fun c => exists c', plainly c c') (codes n).
End Nest.

(* Describing an image is not always possible: the names may be any text. *)
Theorem C124_nesting_refuted : ~ (forall (st : nat -> mdict unit unit unit) t,
  (forall p n, node_at t p = Some n -> well_kept (st (n_meta (label_of n)))) ->
  exists i, nesting (fun t => t) st t = Ok i).
Proof.
  intros H. destruct (H (fun _ => [("channels"%string, MChannels (mkF ["s2.red"%string] false))]) (TUnary (mkN None "DelayedArray" 0) None)) as (i & E).
  - intros p n _. split; [repeat constructor; cbn; tauto|]. intros f E. cbn in E. injection E as <-. split.
    + intros E. discriminate.
    + eexists. vm_compute. reflexivity.
  - vm_compute in E. discriminate.
Qed.
Print Assumptions C124_nesting_refuted.

Section Proofs.
Context {T C A : Type} (tconcise : T -> C) (basename : string -> string).
Notation mdict := (mdict T C A).
Notation mirrors := (@mirrors T C A tconcise).
Notation describes := (@describes T C A tconcise).

Lemma set_map {V} k (w : V) m : NoDup (map fst m) -> In k (map fst m) ->
  dict_set k w m = map (fun kv => if String.eqb (fst kv) k then (fst kv, w) else kv) m.
Proof.
  induction m as [|(k1 & v1) m IH]; intros Hd Hi; [destruct Hi|]. cbn [dict_set map fst]. inversion Hd as [|? ? Hn Hd']; subst.
  destruct (String.eqb_spec k k1) as [<- | Ne].
  - rewrite String.eqb_refl. f_equal. symmetry. rewrite <- map_id. apply map_ext_in. intros (k2 & v2) H2. cbn.
    destruct (String.eqb_spec k2 k) as [-> | N2]; [|reflexivity]. elim Hn. now apply (in_map fst) in H2.
  - destruct (String.eqb_spec k1 k); [congruence|]. f_equal. apply IH; [assumption|]. destruct Hi as [E|Hi]; [cbn in E; congruence|exact Hi].
Qed.
Lemma get_key {V} k (v : V) m : dict_get k m = Some v -> In k (map fst m).
Proof. intros H. apply dict_get_In in H. now apply (in_map fst) in H. Qed.

(* one changed value *)
Lemma set_describes (P : string -> mval T C A -> mval T C A -> Prop) k v w (m : mdict) :
  NoDup (map fst m) -> dict_get k m = Some v -> P k v w -> (forall k' v', k' <> k -> In (k', v') m -> P k' v' v') ->
  Forall2 (fun kv kw => fst kv = fst kw /\ P (fst kv) (snd kv) (snd kw)) m (dict_set k w m).
Proof.
  intros Hd Hg Hp Ho. rewrite set_map by eauto using get_key.
  assert (G : forall l, incl l m -> Forall2 (fun kv kw => fst kv = fst kw /\ P (fst kv) (snd kv) (snd kw)) l (map (fun kv => if String.eqb (fst kv) k then (fst kv, w) else kv) l)).
  { induction l as [|(k1 & v1) l IH]; intros Hi; [constructor|]. cbn [map]. constructor.
    - cbn [fst]. destruct (String.eqb_spec k1 k) as [-> | Ne]; cbn [fst snd]; (split; [reflexivity|]).
      + assert (E : dict_get k m = Some v1) by (apply dict_In_get; [assumption|apply Hi; now left]). congruence.
      + apply Ho; [assumption|]. apply Hi. now left.
    - apply IH. intros x Hx. apply Hi. now right. }
  apply G. apply incl_refl.
Qed.

(* what a step may do with the transform, and with the names *)
Definition showsT (k : string) (v w : mval T C A) : Prop :=
  match v with MTransform t => if String.eqb k "transform" then w = MDict (tconcise t) else w = v | _ => w = v end.
Definition showsC (k : string) (v w : mval T C A) : Prop :=
  match v with
  | MChannels f => if String.eqb k "channels" then
      exists g n n', w = MText (fspec g) /\ normalize f = Ok n /\ normalize g = Ok n' /\ Forall2 plainly (codes n) (codes n')
      else w = v
  | _ => w = v
  end.
Lemma shows_both k u v w : showsT k u v -> showsC k v w -> describes k u w.
Proof.
  unfold showsT, showsC, describes. destruct u; try (intros ->; auto; fail).
  destruct (String.eqb k "transform"); intros ->; auto.
Qed.
Lemma same_all (P : string -> mval T C A -> mval T C A -> Prop) (m : mdict) : (forall k v, In (k, v) m -> P k v v) ->
  Forall2 (fun kv kw => fst kv = fst kw /\ P (fst kv) (snd kv) (snd kw)) m m.
Proof.
  intros H. assert (G : forall l, incl l m -> Forall2 (fun kv kw => fst kv = fst kw /\ P (fst kv) (snd kv) (snd kw)) l l).
  { induction l as [|(k & v) l IH]; intros Hi; constructor; [split; [reflexivity|apply H, Hi; now left]|]. apply IH. intros x Hx. apply Hi. now right. }
  apply G, incl_refl.
Qed.

Lemma transform_ok (m : mdict) : NoDup (map fst m) ->
  Forall2 (fun kv kw => fst kv = fst kw /\ showsT (fst kv) (snd kv) (snd kw)) m (show_transform tconcise m).
Proof.
  intros Hd. unfold show_transform.
  assert (S : (forall t, dict_get "transform" m <> Some (MTransform t)) ->
    Forall2 (fun kv kw => fst kv = fst kw /\ showsT (fst kv) (snd kv) (snd kw)) m m).
  { intros N. apply same_all. intros k v Hi. destruct v; try reflexivity. cbn. destruct (String.eqb_spec k "transform") as [-> | _]; [|reflexivity].
    elim (N t). now apply dict_In_get. }
  destruct (dict_get "transform" m) as [v|] eqn:E; [|apply S; congruence]. destruct v; try (apply S; congruence).
  eapply set_describes; [assumption|exact E|reflexivity|]. intros k v Ne _. destruct v; try reflexivity. cbn.
  destruct (String.eqb_spec k "transform"); [congruence|reflexivity].
Qed.
Lemma transform_channels (m : mdict) : dict_get "channels" (show_transform tconcise m) = dict_get "channels" m.
Proof.
  unfold show_transform. destruct (dict_get "transform" m) as [v|]; [|reflexivity]. destruct v; try reflexivity.
  apply dict_get_set_other. discriminate.
Qed.
Lemma transform_keys (m : mdict) : map fst (show_transform tconcise m) = map fst m.
Proof.
  unfold show_transform. destruct (dict_get "transform" m) as [v|] eqn:E; [|reflexivity]. destruct v; try reflexivity.
  apply dict_set_keys. eauto using get_key.
Qed.

Lemma meta_ok (m : mdict) : well_kept m ->
  (plain_names m -> exists m', show_channels (show_transform tconcise m) = Ok m' /\
     Forall2 (fun kv kw => fst kv = fst kw /\ describes (fst kv) (snd kv) (snd kw)) m m') /\
  (~ plain_names m -> show_channels (show_transform tconcise m) = Err ValueError).
Proof.
  intros (Hd & Hg). pose proof (transform_ok m Hd) as HT.
  assert (Comp : forall m2, Forall2 (fun kv kw => fst kv = fst kw /\ showsC (fst kv) (snd kv) (snd kw)) (show_transform tconcise m) m2 ->
    Forall2 (fun kv kw => fst kv = fst kw /\ describes (fst kv) (snd kv) (snd kw)) m m2).
  { clear Hd Hg. revert HT. generalize (show_transform tconcise m). intros b HT. induction HT as [|x y a b (E & Hx) _ IH]; intros m2 H2; inversion H2 as [|? z ? m3 (E2 & Hy) H3]; subst; constructor.
    - split; [congruence|]. rewrite E in Hx |- *. eapply shows_both; eauto.
    - now apply IH. }
  unfold show_channels. rewrite transform_channels.
  assert (Same : (forall f, dict_get "channels" m <> Some (MChannels f)) ->
     Forall2 (fun kv kw => fst kv = fst kw /\ showsC (fst kv) (snd kv) (snd kw)) (show_transform tconcise m) (show_transform tconcise m)).
  { intros N. apply same_all. intros k v Hi. destruct v; try reflexivity. cbn. destruct (String.eqb_spec k "channels") as [-> | _]; [|reflexivity].
    elim (N f). rewrite <- transform_channels. apply dict_In_get; [now rewrite transform_keys|assumption]. }
  assert (NP : (forall f, dict_get "channels" m <> Some (MChannels f)) -> plain_names m).
  { intros N f n E. unfold names_of in E. destruct (dict_get "channels" m) as [v|]; [|discriminate]. destruct v; try discriminate. now elim (N f0). }
  destruct (dict_get "channels" m) as [v|] eqn:E.
  2: { split; [intros _; eexists; split; [reflexivity|]; apply Comp, Same; congruence|]. intros N. elim N. apply NP. congruence. }
  destruct v; try (split; [intros _; eexists; split; [reflexivity|]; apply Comp, Same; congruence|intros N; elim N; apply NP; congruence]).
  assert (En : names_of m = Some f) by (unfold names_of; now rewrite E).
  destruct (Hg f En) as (Gf & n & Hn). destruct (C04_concise_partial f n Gf Hn) as (P1 & P2 & P3).
  split.
  - intros Hp. destruct (proj2 P1 (Hp f n En Hn)) as (g & Eg). rewrite Eg. eexists. split; [reflexivity|]. apply Comp.
    eapply set_describes; [now rewrite transform_keys|rewrite transform_channels; exact E| |].
    + cbn. destruct (P2 g Eg) as (n' & Hn' & F). exists g, n, n'. auto.
    + intros k v Ne _. destruct v; try reflexivity. cbn. destruct (String.eqb_spec k "channels"); [congruence|reflexivity].
  - intros Hp. destruct (concise f) as [g|e] eqn:Ec.
    + elim Hp. intros f' n' Ef En'. assert (f' = f) by congruence. subst f'. assert (n' = n) by congruence. subst n'. apply P1. eauto.
    + now rewrite (P3 e eq_refl).
Qed.

Definition fits (st : nat -> mdict) (t : tree) : Prop := forall p n, node_at t p = Some n -> well_kept (st (n_meta (label_of n))).
Definition plain (st : nat -> mdict) (t : tree) : Prop := forall p n, node_at t p = Some n -> plain_names (st (n_meta (label_of n))).
Lemma fits_child st t c : fits st t -> In c (children t) -> fits st c.
Proof. intros H Hc p n Hp. apply In_nth_error in Hc. destruct Hc as (i & Hi). apply (H (i :: p)). cbn. now rewrite Hi. Qed.
Lemma plain_child st t c : plain st t -> In c (children t) -> plain st c.
Proof. intros H Hc p n Hp. apply In_nth_error in Hc. destruct Hc as (i & Hi). apply (H (i :: p)). cbn. now rewrite Hi. Qed.
Lemma plain_all st t : plain_names (st (n_meta (label_of t))) -> (forall c, In c (children t) -> plain st c) -> plain st t.
Proof.
  intros H0 Hc [|i p] n Hp; cbn in Hp; [now injection Hp as <-|]. destruct (nth_error (children t) i) as [c|] eqn:E; [|discriminate].
  apply (Hc c) with (p := p); [now apply nth_error_In in E|assumption].
Qed.

Lemma nesting_eq (st : nat -> mdict) t : nesting tconcise st t =
  (meta <- show_channels (show_transform tconcise (st (n_meta (label_of t)))) ;;
   kids <- mapR (nesting tconcise st) (children t) ;; Ok (Item (n_class (label_of t)) meta kids)).
Proof.
  destruct t as [l [c|]|l ps]; cbn [nesting children label_of mapR].
  - destruct (show_channels _); [|reflexivity]. cbn [bind]. destruct (nesting tconcise st c); reflexivity.
  - reflexivity.
  - destruct (show_channels _); [|reflexivity]. cbn [bind].
    match goal with |- (_ <- ?x ;; _) = (_ <- ?y ;; _) => assert (E : x = y) end; [|now rewrite E].
    induction ps as [|p ps IH]; [reflexivity|]. cbn [mapR]. now rewrite IH.
Qed.

Lemma tree_rect' (P : tree -> Prop) : (forall t, (forall c, In c (children t) -> P c) -> P t) -> forall t, P t.
Proof.
  intros H. fix F 1. intros t. apply H. destruct t as [l [c|]|l ps]; cbn [children].
  - intros d [<- | []]. apply F.
  - intros d [].
  - induction ps as [|p ps IH]; intros d Hd; [destruct Hd|]. destruct Hd as [E|Hd]; [rewrite <- E; exact (F p)|now apply IH].
Qed.

Lemma nesting_ok (st : nat -> mdict) : forall t, fits st t ->
  (plain st t -> exists i, nesting tconcise st t = Ok i /\ mirrors st t i) /\
  (forall e, nesting tconcise st t = Err e -> e = ValueError /\ ~ plain st t).
Proof.
  apply (tree_rect' (fun t => fits st t -> _ /\ _)). intros t IH Hf.
  assert (H0 : well_kept (st (n_meta (label_of t)))) by (now apply (Hf [])). destruct (meta_ok _ H0) as (M1 & M2).
  rewrite nesting_eq.
  assert (K : (forall c, In c (children t) -> plain st c) -> exists kids, mapR (nesting tconcise st) (children t) = Ok kids /\ Forall2 (mirrors st) (children t) kids).
  { assert (IH' : forall c, In c (children t) -> plain st c -> exists i, nesting tconcise st c = Ok i /\ mirrors st c i).
    { intros c Hc. apply IH; [assumption|]. now apply (fits_child st t). }
    clear -IH'. induction (children t) as [|c cs IHc]; intros Hp; [exists []; split; [reflexivity|constructor]|]. cbn [mapR].
    destruct (IH' c) as (i & -> & Hi); [now left|apply Hp; now left|].
    destruct IHc as (is & -> & His); [intros; apply IH'; auto; now right|intros; apply Hp; now right|]. cbn [bind]. eauto. }
  split.
  - intros Hp. destruct M1 as (m & -> & Hm); [now apply (Hp [])|]. cbn [bind].
    destruct K as (kids & -> & Hk); [intros c Hc; now apply (plain_child st t)|]. cbn [bind]. eexists. split; [reflexivity|]. now constructor.
  - intros e He. destruct (show_channels (show_transform tconcise (st (n_meta (label_of t))))) as [m|e0] eqn:Em.
    + cbn [bind] in He.
      assert (X : exists c, In c (children t) /\ nesting tconcise st c = Err e).
      { destruct (mapR (nesting tconcise st) (children t)) as [ks|e0] eqn:Ek; [discriminate|]. cbn [bind] in He. injection He as ->.
        clear -Ek. induction (children t) as [|c cs IHc]; [discriminate|]. cbn [mapR] in Ek.
        destruct (nesting tconcise st c) as [i|e0] eqn:Ec; [|cbn in Ek; exists c; split; [now left|congruence]]. cbn [bind] in Ek.
        destruct (mapR (nesting tconcise st) cs) as [is|e0]; [discriminate|]. destruct IHc as (d & Hd & E); [cbn in Ek; congruence|]. exists d. split; [now right|exact E]. }
      destruct X as (c & Hc & Ec). destruct (IH c Hc (fits_child st t c Hf Hc)) as (_ & I2). destruct (I2 e Ec) as (-> & N). split; [reflexivity|].
      intros Hp. apply N. now apply (plain_child st t).
    + cbn [bind] in He. injection He as ->.
      assert (N : ~ plain_names (st (n_meta (label_of t)))) by (intros Hp; destruct (M1 Hp) as (m & E & _); discriminate).
      split; [pose proof (M2 N); congruence|]. intros Hp. apply N. now apply (Hp []).
Qed.

(* names with a dot that is not followed by a number are what is missing, exactly *)
Theorem C124_nesting_partial : forall (st : nat -> mdict) t,
  (forall p n, node_at t p = Some n -> well_kept (st (n_meta (label_of n)))) ->
  ((exists i, nesting tconcise st t = Ok i) <-> (forall p n, node_at t p = Some n -> plain_names (st (n_meta (label_of n))))) /\
  (forall i, nesting tconcise st t = Ok i -> mirrors st t i) /\
  (forall e, nesting tconcise st t = Err e -> e = ValueError).
Proof.
  intros st t Hf. destruct (nesting_ok st t Hf) as (N1 & N2).
  assert (D : (exists i, nesting tconcise st t = Ok i) -> plain st t).
  { revert Hf. clear N1 N2. pattern t. apply tree_rect'. clear t. intros t IH Hf (i & E). rewrite nesting_eq in E.
    destruct (meta_ok (st (n_meta (label_of t)))) as (M1 & M2); [now apply (Hf [])|].
    destruct (show_channels (show_transform tconcise (st (n_meta (label_of t))))) as [m|e0] eqn:Em; [|discriminate]. cbn [bind] in E.
    apply plain_all.
    - intros f n Ef En. apply Forall_forall. intros c Hc.
      assert (W : well_kept (st (n_meta (label_of t)))) by now apply (Hf []). destruct W as (Hd & Hg).
      destruct (Hg f Ef) as (Gf & n0 & Hn0). assert (n0 = n) by congruence. subst n0.
      destruct (C04_concise_partial f n Gf En) as (P1 & _ & P3).
      unfold show_channels in Em. rewrite transform_channels in Em. unfold names_of in Ef.
      destruct (dict_get "channels" (st (n_meta (label_of t)))) as [[]|]; try discriminate. injection Ef as ->.
      destruct (concise f) as [g|e] eqn:Ec; [|rewrite (P3 e eq_refl) in Em; discriminate].
      assert (F : Forall (fun c => exists c', plainly c c') (codes n)) by (apply P1; eauto). now apply (proj1 (Forall_forall _ _) F).
    - intros c Hc. apply IH; [assumption|now apply (fits_child st t)|].
      destruct (mapR (nesting tconcise st) (children t)) as [ks|] eqn:Ek; [|discriminate]. clear -Ek Hc.
      revert ks Ek. induction (children t) as [|d ds IHd]; intros ks Ek; [destruct Hc|]. cbn [mapR] in Ek.
      destruct (nesting tconcise st d) as [j|] eqn:Ed; [|discriminate]. cbn [bind] in Ek.
      destruct Hc as [<- | Hc]; [eauto|]. destruct (mapR (nesting tconcise st) ds) as [js|]; [|discriminate]. eapply IHd; eauto. }
  split; [|split].
  - split; [exact D|]. intros Hp. destruct (N1 Hp) as (i & E & _). eauto.
  - intros i E. destruct (N1 (D (ex_intro _ i E))) as (i' & E' & M). congruence.
  - intros e E. now apply N2.
Qed.
End Proofs.
Print Assumptions C124_nesting_partial.

Definition ex_meta (i : nat) : mdict unit unit unit :=
  match i with
  | O => [("channels"%string, MChannels (mkF ["a.01"; "a.2"; "b"]%string false)); ("dsize"%string, MNone)]
  | _ => [("transform"%string, MTransform tt); ("channels"%string, MNone)]
  end.
Example C124_hyps : (forall p n, node_at TreeProps.ex_tree p = Some n -> well_kept (ex_meta (n_meta (label_of n)))) /\
  nesting (fun t => t) ex_meta (TUnary (mkN None "DelayedWarp" 1) (Some TreeProps.ex_load)) =
  Ok (Item "DelayedWarp"%string [("transform"%string, MDict tt); ("channels"%string, MNone)]
        [Item "DelayedLoad"%string [("channels"%string, MText "a.1:3|b"%string); ("dsize"%string, MNone)] []]).
Proof.
  split; [|vm_compute; reflexivity]. intros p n _. destruct (n_meta (label_of n)).
  - split; [repeat constructor; cbn; intuition congruence|]. intros f E. cbn in E. injection E as <-.
    split; [intros E; discriminate|]. eexists. vm_compute. reflexivity.
  - split; [repeat constructor; cbn; intuition congruence|]. intros f E. discriminate.
Qed.

(** * C125: the graph *)
Section Graph.
Context {T C A : Type} (tconcise : T -> C) (basename : string -> string).
Notation mdict := (mdict T C A).

(* settings as the constructors make them *)
Definition printable (m : mdict) : Prop := NoDup (map fst m) /\
  (forall v, dict_get "transform" m = Some v -> v = MNone \/ exists t, v = MTransform t) /\
  (forall v, dict_get "channels" m = Some v -> v = MNone \/ exists f, v = MChannels f) /\
  (forall v, dict_get "fpath" m = Some v -> v = MNone \/ exists s, v = MText s).

Definition setting (m : mdict) (k : string) : option (mval T C A) :=
  match dict_get k m with Some MNone => None | o => o end.
(* options that fields='auto' hides *)
Definition hidden : list string := ["jagged"; "border_value"; "antialias"; "interpolation"; "noop_eps"]%string.

(* what the drawing has to show under a key *)
Inductive pictured (auto : bool) (m : mdict) (k : string) : option (mval T C A) -> Prop :=
| Pic_path s : k = "fname"%string -> setting m "fpath" = Some (MText s) -> pictured auto m k (Some (MText (basename s)))
| Pic_fname : k = "fname"%string -> setting m "fpath" = None -> pictured auto m k (setting m k)
| Pic_fpath : k = "fpath"%string -> pictured auto m k None
| Pic_hidden : auto = true -> In k hidden -> pictured auto m k None
| Pic_num f : k = "num_channels"%string -> setting m "channels" = Some (MChannels f) -> pictured auto m k None
| Pic_num_kept : k = "num_channels"%string -> setting m "channels" = None -> pictured auto m k (setting m k)
| Pic_channels f : k = "channels"%string -> setting m k = Some (MChannels f) -> pictured auto m k (Some (MText (fspec f)))
| Pic_transform t : k = "transform"%string -> setting m k = Some (MTransform t) -> pictured auto m k (Some (MDict (tconcise t)))
| Pic_none : setting m k = None -> k <> "fname"%string -> pictured auto m k None
| Pic_other : ~ In k ["fname"; "fpath"; "num_channels"; "channels"; "transform"]%string -> (auto = true -> ~ In k hidden) ->
    pictured auto m k (setting m k).

Lemma get_drop k k' (m : mdict) : dict_get k (drop k' m) = if String.eqb k k' then None else dict_get k m.
Proof.
  unfold drop. induction m as [|(k1 & v) m IH]; [now destruct (String.eqb k k')|]. cbn [filter fst].
  destruct (String.eqb_spec k1 k') as [-> | N1]; cbn [negb].
  - rewrite IH. cbn [dict_get]. now destruct (String.eqb_spec k k').
  - cbn [dict_get]. rewrite IH. destruct (String.eqb_spec k k1) as [-> | N2]; [|reflexivity]. now destruct (String.eqb_spec k1 k').
Qed.
Lemma get_set k k' v (m : mdict) : dict_get k (dict_set k' v m) = if String.eqb k k' then Some v else dict_get k m.
Proof. destruct (String.eqb_spec k k') as [-> | Ne]; [apply dict_get_set_same|now apply dict_get_set_other]. Qed.
Lemma get_settings k (m : mdict) : NoDup (map fst m) -> dict_get k (settings m) = setting m k.
Proof.
  unfold settings, setting. induction m as [|(k1 & v) m IH]; intros Hd; [reflexivity|]. inversion Hd as [|? ? Hn Hd']; subst. cbn [filter snd dict_get].
  destruct (String.eqb_spec k k1) as [-> | Ne].
  - destruct v; cbn [dict_get]; rewrite ?String.eqb_refl; try reflexivity.
    apply dict_get_None. intros H. apply Hn. clear -H. induction m as [|(k2 & v) m IH]; [destruct H|]. cbn in H |- *. destruct v; cbn in H; tauto.
  - destruct v; cbn [dict_get]; try (destruct (String.eqb_spec k k1); [congruence|]); auto.
Qed.

Ltac shut := first [congruence |
  now eapply Pic_fpath | now eapply Pic_hidden; [reflexivity|cbn; tauto] | eapply Pic_path; [reflexivity|assumption]
  | now eapply Pic_num; [reflexivity|eassumption] | now eapply Pic_channels; [reflexivity|eassumption] | now eapply Pic_transform; [reflexivity|eassumption]
  | now eapply Pic_none; [assumption|discriminate] | now eapply Pic_fname | now eapply Pic_num_kept
  | eapply Pic_other; [cbn; intuition congruence|cbn; intuition congruence] ].

Lemma graph_meta_ok auto (m : mdict) : printable m ->
  exists m', graph_meta tconcise basename auto m = Ok m' /\ forall k, pictured auto m k (dict_get k m').
Proof.
  intros (Hd & Ht & Hc & Hp). unfold graph_meta. cbn zeta. rewrite !get_settings by assumption.
  assert (St : setting m "transform" = None \/ exists t, setting m "transform" = Some (MTransform t)).
  { unfold setting. destruct (dict_get "transform" m) as [v|]; [|now left]. destruct (Ht v eq_refl) as [-> | (t & ->)]; eauto. }
  assert (Sc : setting m "channels" = None \/ exists f, setting m "channels" = Some (MChannels f)).
  { unfold setting. destruct (dict_get "channels" m) as [v|]; [|now left]. destruct (Hc v eq_refl) as [-> | (t & ->)]; eauto. }
  assert (Sp : setting m "fpath" = None \/ exists s, setting m "fpath" = Some (MText s)).
  { unfold setting. destruct (dict_get "fpath" m) as [v|]; [|now left]. destruct (Hp v eq_refl) as [-> | (t & ->)]; eauto. }
  destruct St as [St | (t & St)]; rewrite ?St; cbn [bind];
  rewrite ?get_set, ?get_settings by assumption;
  change (String.eqb "channels" "transform") with false; cbv iota;
  destruct Sc as [Sc | (f & Sc)]; rewrite ?Sc; cbn [bind];
  destruct auto; rewrite ?get_drop, ?get_set, ?get_settings by assumption; cbn [String.eqb Ascii.eqb Bool.eqb];
  destruct Sp as [Sp | (p & Sp)]; rewrite ?Sp; cbv iota; eexists; (split; [reflexivity|]); intros k;
  repeat (rewrite get_drop || rewrite get_set); rewrite ?get_settings by assumption;
  repeat match goal with
  | |- context [String.eqb k ?b] => destruct (String.eqb_spec k b); [subst k|]; cbv iota
  end; rewrite ?St, ?Sc, ?Sp; try shut;
  (destruct (string_dec k "fname"); [subst k; rewrite ?Sp; shut|]);
  (destruct (string_dec k "fpath"); [subst k; rewrite ?Sp; shut|]);
  (destruct (string_dec k "num_channels"); [subst k; shut|]);
  (destruct (string_dec k "channels"); [subst k; rewrite ?Sc; shut|]);
  (destruct (string_dec k "transform"); [subst k; rewrite ?St; shut|]); shut.
Qed.

Theorem C125_as_graph : forall auto short (st : nat -> mdict) t,
  (forall p n, node_at t p = Some n -> printable (st (n_meta (label_of n)))) ->
  exists nodes edges ps (nm : list nat -> string),
    as_graph tconcise basename auto short st t = Ok (nodes, edges) /\
    lists t (fun _ => True) ([] :: ps) /\ NoDup (map fst nodes) /\
    edges = map (fun p => (nm (removelast p), nm p)) ps /\
    Forall2 (fun p kn => fst kn = nm p /\ exists n, node_at t p = Some n /\ fst (snd kn) = short (n_class (label_of n)) /\
      forall k, pictured auto (st (n_meta (label_of n))) k (dict_get k (snd (snd kn)))) ([] :: ps) nodes.
Proof.
  intros auto short st t Hf. destruct (TreeProps.C59_graph t) as (g & ps & nm & Eg & Hl & Nd & Hn & He).
  assert (X : exists nodes, mapR (fun kn => m <- graph_meta tconcise basename auto (st (n_meta (label_of (snd kn)))) ;;
                        Ok (fst kn, (short (n_class (label_of (snd kn))), m))) (gr_nodes g) = Ok nodes /\ map fst nodes = map fst (gr_nodes g) /\
     Forall2 (fun p kn => fst kn = nm p /\ exists n, node_at t p = Some n /\ fst (snd kn) = short (n_class (label_of n)) /\
      forall k, pictured auto (st (n_meta (label_of n))) k (dict_get k (snd (snd kn)))) ([] :: ps) nodes).
  { clear Nd Eg He Hl. induction Hn as [|p (k & n) qs ns (E1 & E2) _ IH]; [exists []; repeat split; constructor|].
    destruct IH as (nodes & E & Ek & F). cbn [mapR]. rewrite E. cbn [fst snd] in E1, E2 |- *.
    destruct (graph_meta_ok auto (st (n_meta (label_of n)))) as (m & -> & Hm); [now apply (Hf p)|]. cbn [bind]. eexists. split; [reflexivity|]. split.
    - cbn [map fst]. now rewrite Ek.
    - constructor; [|exact F]. cbn [fst snd]. split; [exact E1|]. exists n. auto. }
  destruct X as (nodes & E & Ek & F). exists nodes, (gr_edges g), ps, nm. unfold as_graph. rewrite Eg. cbn [bind]. rewrite E. cbn [bind].
  split; [reflexivity|]. split; [exact Hl|]. split; [now rewrite Ek|]. split; [exact He|exact F].
Qed.
End Graph.
Print Assumptions C125_as_graph.

Example C125_hyps : printable (ex_meta 0) /\ printable (ex_meta 1) /\
  graph_meta (A := unit) (fun t : unit => t) (fun s => s) true
    [("fpath", MText "x.png"); ("num_channels", MOther tt); ("channels", MChannels (mkF ["a"; "b"] false)); ("antialias", MOther tt); ("lvl", MNone)]%string
  = Ok [("channels", MText "a|b"); ("fname", MText "x.png")]%string.
Proof.
  split; [|split; [|vm_compute; reflexivity]]; (split; [repeat constructor; cbn; intuition congruence|]);
    repeat split; cbn; intros v E; try discriminate; injection E as <-; eauto.
Qed.
