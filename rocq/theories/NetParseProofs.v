(* Reading a drawing back: the stack of the parser follows the stack of the
   drawing. *)
From Verif Require Import Py PyProofs NetModel NetSpec NetProofs NetParseModel NetParseSpec NetText.
From Coq Require Import Ascii ZifyBool Sorting.Sorted FinFun.
Local Open Scope Z_scope.

(** ** The stack of the parser *)
Fixpoint drop (i : Z) (P : list pframe) : list pframe :=
  match P with
  | [] => []
  | e :: P' => if i <=? pf_indent e then drop i P' else P
  end.
Lemma pop_drop i prev P e P' : drop i (prev :: P) = e :: P' -> pop_to i prev P = Ok (e, P').
Proof.
  revert prev. induction P as [|x P IH]; intros prev; cbn [drop pop_to].
  - destruct (i <=? pf_indent prev); [discriminate|]. intros E. now inversion E.
  - destruct (i <=? pf_indent prev).
    + intros E. apply IH, E.
    + intros E. now inversion E.
Qed.
Lemma drop_above i above P : Forall (fun e => i <= pf_indent e) above -> drop i (above ++ P) = drop i P.
Proof.
  induction 1 as [|e above He HF IH]; cbn [app drop]; auto. apply Z.leb_le in He. now rewrite He.
Qed.
Lemma drop_stays i above e P : pf_indent e < i -> exists above', drop i (above ++ e :: P) = (above' ++ e :: P)%list /\
  forall x, In x above' -> In x above.
Proof.
  intros He. induction above as [|x above IH]; cbn [app drop].
  - destruct (i <=? pf_indent e) eqn:E; [lia|]. exists []. auto.
  - destruct (i <=? pf_indent x) eqn:E.
    + destruct IH as (a & -> & Ha). exists a. split; auto. intros y Hy. right. auto.
    + exists (x :: above). auto.
Qed.
Lemma drop_bottom i P : (exists e, In e P /\ pf_indent e < 0) -> 0 <= i ->
  drop i P <> [] /\ exists e, In e (drop i P) /\ pf_indent e < 0.
Proof.
  intros (e & He & Hn) Hi. apply in_split in He as (a & b & ->).
  destruct (drop_stays i a e b) as (a' & E & _); [lia|]. rewrite E. split; [now destruct a'|].
  exists e. split; auto. apply in_or_app. right. now left.
Qed.

(* only an entry below one of the same indent is marked *)
Fixpoint flags (i : option Z) (P : list pframe) : Prop :=
  match P with
  | [] => True
  | e :: P' => (pf_vertical e = true -> i = Some (pf_indent e)) /\ flags (Some (pf_indent e)) P'
  end.
Lemma flags_drop i t P : flags i P -> (forall k, i = Some k -> t <= k) -> flags None (drop t P).
Proof.
  revert i. induction P as [|e P IH]; intros i; cbn [flags drop]; auto. intros (H1 & H2) Hk.
  destruct (t <=? pf_indent e) eqn:E.
  - eapply IH; [exact H2|]. intros k Ek. inversion Ek. lia.
  - split; [|exact H2]. intros Hv. apply H1, Hk in Hv. lia.
Qed.

(** ** The drawing *)
Section Parse.
Context {N : Type} (eqb : N -> N -> bool) (eqb_ok : forall a b, eqb a b = true <-> a = b).
Context (g : net N) (d : bool) (vc : bool).
Context (F : finite_net g) (Hcol : forall n, nt_collapse g n = false).
Context (Hlab : forall n, In n (nt_nodes g) -> plain_label (nt_label g n)).
Notation gl := (gl_of d).
Notation lbl := (nt_label g).
Notation draw := (draw eqb g gl None vc).
Notation loop := (loop eqb g gl None vc).
Notation expand := (expand eqb g None).

(* what a line tells *)
Definition row_edges (l : line N) : list (string * string) :=
  match l with
  | Row (Node n) p others _ =>
      (map (fun u => (lbl u, lbl n)) others ++ match p with Some p => [(lbl p, lbl n)] | None => [] end)%list
  | _ => []
  end.
Definition width (f : frame N) : Z := Z.of_nat (List.length (fr_indents f)).
Definition wider (a b : frame N) : Prop := width b <= width a.
(* the entry of the parent, under entries that are indented further *)
Definition placed (P : list pframe) (f : frame N) : Prop :=
  exists above v below, P = (above ++ PF (option_map lbl (fr_parent f)) (4 * width f - 1) v :: below)%list /\
    Forall (fun e => 4 * width f + 3 <= pf_indent e) above.

Record inv (st : list (frame N)) (sk : list (option N)) (seen : list N) (P : list pframe) : Prop := {
  i_bottom : exists e, In e P /\ pf_indent e < 0;
  i_flags : flags None P;
  i_sorted : StronglySorted wider st;
  i_ind : Forall (fun f => Forall (fun x => In x indents) (fr_indents f)) st;
  i_node : forall f n, In f st -> fr_item f = Node n ->
             placed P f /\ In n (nt_nodes g) /\ (forall p, fr_parent f = Some p -> In p seen);
  i_tail : Forall (fun f => fr_vertical f = false) (List.tl st);
  i_head : forall f st', st = f :: st' -> fr_vertical f = true ->
             exists n, fr_item f = Node n /\ fr_indents f <> [] /\
               (In n seen \/ (~ In (fr_parent f) sk /\ Forall (fun f' => width f' < width f) st' /\
                  exists v below, P = PF (option_map lbl (fr_parent f)) (4 * width f - 1) v :: below));
  i_sk : forall p, In (Some p) sk -> In p seen
}.

Lemma set_size_length (l : list (item N)) : NoDup l -> set_size eqb l = Z.of_nat (List.length l).
Proof.
  induction l as [|i l IH]; intros H; [reflexivity|]. inversion H as [|? ? Hi Hl]; subst. cbn [set_size List.length].
  destruct (existsb (item_eqb eqb i) l) eqn:E.
  - apply existsb_exists in E as (j & Hj & E). assert (i = j).
    { destruct i, j; cbn in E; try discriminate; auto. apply eqb_ok in E. now subst. }
    now subst.
  - rewrite IH by assumption. lia.
Qed.

(* the children and other parents of a node that is not cut *)
Lemma expand_nodes f n seen : In n (nt_nodes g) ->
  exists cs, fst (expand f n seen) = map Node cs /\ NoDup cs /\ (forall c, In c cs -> In c (nt_nodes g)) /\
    (nt_directed g = false -> forall c, In c cs -> ~ In c seen) /\
    (forall u, In u (snd (expand f n seen)) -> In u (nt_nodes g)).
Proof.
  intros Hn. unfold NetModel.expand. rewrite Hcol. cbn [at_depth orb fst snd].
  exists (if nt_directed g then nt_succ g n else filter (fun c => negb (memb eqb c seen)) (nt_succ g n)).
  split; [reflexivity|]. split; [|split; [|split]].
  - destruct (nt_directed g); [|apply NoDup_filter]; apply F.
  - intros c Hc. apply (fn_closed g F n c Hn). destruct (nt_directed g); auto. now apply filter_In in Hc.
  - intros -> c Hc. apply filter_In in Hc as (_ & Hc). apply negb_true_iff in Hc. now apply (memb_false eqb eqb_ok) in Hc.
  - intros u Hu. apply filter_In in Hu as (Hu & _). eapply (fn_pred_closed g F); eauto.
Qed.

Lemma indents_next f : Forall (fun x => In x indents) (fr_indents f) ->
  let '(this, next, vert) := prefixes gl f in
  (vert = false -> Forall (fun x => In x (segs d)) this /\ Z.of_nat (List.length this) = width f + 1 /\
     Forall (fun x => In x indents) next /\ Z.of_nat (List.length next) = width f + 1) /\
  (vert = true -> this = fr_indents f /\ next = fr_indents f \/ fr_indents f = []) /\
  (vert = true -> fr_vertical f = true) /\ (fr_indents f <> [] -> vert = fr_vertical f).
Proof.
  intros H. unfold prefixes, width.
  assert (Hs : Forall (fun x => In x (segs d)) (fr_indents f)).
  { eapply Forall_impl; [|exact H]. intros x. apply indents_segs. }
  destruct (fr_indents f) as [|x l] eqn:E.
  - destruct (fr_last f) eqn:El.
    + split; [|split; [|split]]; try discriminate; try congruence. intros _.
      repeat split; try (constructor; [|constructor]); destruct d; cbn; auto 10.
    + split; [|split; [|split]]; auto; try congruence. intros _.
      repeat split; try (constructor; [|constructor]); destruct d; cbn; auto 10.
  - rewrite <- E in *. destruct (fr_vertical f) eqn:Ev.
    + split; [discriminate|]. split; [|auto]. intros _. left. now rewrite E.
    + assert (K : forall y, In y (segs d) -> Forall (fun x => In x (segs d)) (fr_indents f ++ [y])).
      { intros y Hy. apply Forall_app. split; auto. }
      assert (K' : forall y, In y indents -> Forall (fun x => In x indents) (fr_indents f ++ [y])).
      { intros y Hy. apply Forall_app. split; auto. }
      assert (L : forall y : string, Z.of_nat (List.length (fr_indents f ++ [y])) = Z.of_nat (List.length (fr_indents f)) + 1).
      { intros y. rewrite app_length. cbn. lia. }
      destruct (fr_last f); (split; [|split; [|split]]; try discriminate; try congruence; intros _;
        split; [apply K|split; [apply L|split; [apply K'|apply L]]]; destruct d; cbn; auto 10).
Qed.

Lemma suffix_tail others : Forall plain_label (map lbl others) -> suffix g gl others = tail d (map lbl others).
Proof. intros _. unfold suffix, tail, symbol. destruct others as [|o l]; [reflexivity|]. now destruct d. Qed.

(* one line of a node that is not drawn below a vertical edge *)
Lemma parse_node_line P this n others e below :
  this <> [] -> Forall (fun x => In x (segs d)) this -> In n (nt_nodes g) -> (forall u, In u others -> In u (nt_nodes g)) ->
  (pf_vertical (List.hd e P) = true -> P = e :: below) ->
  (pf_vertical (List.hd e P) = false -> drop (4 * Z.of_nat (List.length this) - 1) P = e :: below) -> P <> [] ->
  parse_line gl P (String.concat "" this ++ lbl n ++ suffix g gl others) =
    Ok (PF (Some (lbl n)) (4 * Z.of_nat (List.length this) - 1) false :: e :: below, [lbl n],
        (map (fun u => (lbl u, lbl n)) others ++ match pf_node e with Some p => [(p, lbl n)] | None => [] end)%list).
Proof.
  intros Hne HF Hn Ho Hv Hd HP.
  assert (Hl : Forall plain_label (map lbl others)).
  { apply Forall_forall. intros s Hs. apply in_map_iff in Hs as (u & <- & Hu). auto. }
  rewrite suffix_tail by assumption. unfold parse_line. rewrite not_empty; auto.
  2:{ destruct (lbl n) eqn:E; [|discriminate]. destruct (Hlab n Hn) as (K & _). congruence. }
  destruct (scan_node d this Hne HF (lbl n) (map lbl others) (Hlab n Hn) Hl) as (p & -> & Hp).
  cbn [bind]. destruct P as [|prev P]; [congruence|]. cbn [List.hd] in *.
  rewrite plain_not_vertical; [|auto|destruct d; auto].
  assert (Ep : Z.of_nat (String.length p) = 4 * Z.of_nat (List.length this) - 1)
    by (destruct this; [congruence | cbn [List.length] in *; lia]).
  rewrite Ep. rewrite map_map.
  assert (E' : String.eqb (lbl n) "..." = false) by (apply String.eqb_neq; apply (Hlab n Hn)).
  destruct (pf_vertical prev) eqn:Ev.
  - specialize (Hv eq_refl). inversion Hv; subst. cbn [bind]. now rewrite E'.
  - rewrite (pop_drop _ _ _ _ _ (Hd eq_refl)). cbn [bind]. now rewrite E'.
Qed.

Lemma parse_ell_line P this :
  this <> [] -> Forall (fun x => In x (segs d)) this -> pf_vertical (List.hd (PF None 0 false) P) = false ->
  drop (4 * Z.of_nat (List.length this)) P <> [] ->
  parse_line gl P (String.concat "" this ++ " ...") = Ok (drop (4 * Z.of_nat (List.length this)) P, [], []).
Proof.
  intros Hne HF Hv Hd. unfold parse_line. rewrite not_empty; auto; [|discriminate].
  destruct (scan_ell d this Hne HF) as (-> & Hp). cbn [bind].
  destruct P as [|prev P]; [now elim Hd|]. cbn [List.hd] in Hv.
  assert (E : has "..." (gl_vertical gl) = false) by now destruct d. rewrite E, Hv.
  assert (Ep : Z.of_nat (String.length (String.concat "" this)) = 4 * Z.of_nat (List.length this)) by lia. rewrite Ep.
  destruct (drop (4 * Z.of_nat (List.length this)) (prev :: P)) as [|e below] eqn:Ed; [congruence|].
  now rewrite (pop_drop _ _ _ _ _ Ed).
Qed.

Lemma parse_vertical_line P this prev :
  this <> [] -> Forall (fun x => In x (segs d)) this ->
  parse_line gl (prev :: P) (String.concat "" this ++ gl_vertical gl) = Ok (PF (pf_node prev) (pf_indent prev) true :: P, [], []).
Proof.
  intros Hne HF. unfold parse_line. rewrite not_empty; auto; [|destruct d; discriminate].
  destruct (scan_vertical d this Hne HF) as (p & ->). cbn [bind].
  assert (E : has (gl_vertical gl) (gl_vertical gl) = true) by now destruct d. now rewrite E.
Qed.

(** ** The steps of the drawing *)
Lemma inv_novert f st sk seen P st' f' : inv (f :: st) sk seen P -> st = f' :: st' -> fr_vertical f' = false.
Proof. intros [_ _ _ _ _ T _ _] ->. cbn in T. now inversion T. Qed.

Lemma inv_skip f n st sk seen P : inv (f :: st) sk seen P -> fr_item f = Node n ->
  inv st (fr_parent f :: sk) seen P.
Proof.
  intros I Ef. pose proof I as [B Fl S Ind Nd T Hd Sk]. constructor; auto.
  - now inversion S.
  - now inversion Ind.
  - intros f' n' Hf. apply Nd. now right.
  - destruct st; [constructor|]. cbn in T. now inversion T.
  - intros f' st' E Hv. rewrite (inv_novert _ _ _ _ _ _ _ I E) in Hv. discriminate.
  - intros p [Hp | Hp]; auto. destruct (Nd f n (or_introl eq_refl) Ef) as (_ & _ & K). auto.
Qed.

Lemma inv_redo f n st sk sk' seen P : inv (f :: st) sk seen P -> fr_item f = Node n ->
  (In n seen /\ sk' = fr_parent f :: sk) \/ (~ In n seen /\ sk' = sk /\ In (fr_parent f) sk) ->
  inv (mkFr (fr_parent f) (Node n) (fr_indents f) false (fr_vertical f) ::
       mkFr (Some n) Ell (fr_indents f) true false :: st) sk' seen P.
Proof.
  intros I Ef Hk. pose proof I as [B Fl S Ind Nd T Hd Sk].
  inversion S as [|? ? Ss Sf]; subst. inversion Ind as [|? ? If Is]; subst.
  constructor; auto.
  - constructor; [constructor; [exact Ss|exact Sf]|]. constructor; [unfold wider, width; cbn; lia | exact Sf].
  - intros f' n' [<- | [<- | Hf]] E; [|discriminate|apply Nd; auto; now right].
    cbn in E. inversion E; subst n'. apply (Nd f n (or_introl eq_refl) Ef).
  - cbn. constructor; auto.
  - intros f' st' E Hv. inversion E; subst f' st'. cbn [fr_vertical fr_item fr_indents] in *.
    destruct (Hd f st eq_refl Hv) as (n' & En & Hi & Hor). rewrite Ef in En. inversion En; subst n'.
    exists n. split; auto. split; auto. left. destruct Hk as [(K & _) | (K & _ & K2)]; auto.
    destruct Hor as [Hor | (Hor & _)]; contradiction.
  - intros p Hp. destruct Hk as [(K & ->) | (_ & -> & _)]; auto.
    destruct Hp as [Hp | Hp]; auto. destruct (Nd f n (or_introl eq_refl) Ef) as (_ & _ & K'). auto.
Qed.

Lemma flags_hd P e : flags None P -> pf_vertical e = false -> pf_vertical (List.hd e P) = false.
Proof. intros H He. destruct P as [|x P]; auto. cbn in *. destruct H as (H & _). destruct (pf_vertical x); auto. now discriminate H. Qed.

Lemma placed_drop P f t : placed P f -> 4 * width f - 1 < t -> placed (drop t P) f.
Proof.
  intros (a & v & b & -> & HF) Ht. destruct (drop_stays t a (PF (option_map lbl (fr_parent f)) (4 * width f - 1) v) b) as (a' & E & Ha); [exact Ht|].
  exists a', v, b. split; auto. rewrite Forall_forall in *. auto.
Qed.
Lemma placed_push P f e : placed P f -> 4 * width f + 3 <= pf_indent e -> placed (e :: P) f.
Proof. intros (a & v & b & -> & HF) He. exists (e :: a)%list, v, b. split; auto. Qed.

Lemma inv_ell f st sk seen P : inv (f :: st) sk seen P -> fr_item f = Ell ->
  exists P' s, fst (draw f seen) = [Row Ell (fr_parent f) [] s] /\ snd (draw f seen) = [] /\
    parse_line gl P s = Ok (P', [], []) /\ inv st sk seen P' /\
    (forall w, In w (List.tl (words d)) -> has w s = false) /\ s <> gl_empty gl.
Proof.
  intros I Ef. pose proof I as [B Fl S Ind Nd T Hd Sk].
  assert (Hv : fr_vertical f = false).
  { destruct (fr_vertical f) eqn:E; auto. destruct (Hd f st eq_refl E) as (n & En & _). congruence. }
  inversion S as [|? ? Ss Sf]; subst. inversion Ind as [|? ? If Is]; subst.
  unfold NetModel.draw. rewrite Ef. pose proof (indents_next f If) as Hn.
  destruct (prefixes gl f) as [[this next] vert]. destruct Hn as (H1 & _ & H3 & _).
  assert (vert = false) as -> by (destruct vert; auto; rewrite H3 in Hv; auto).
  destruct (H1 eq_refl) as (K1 & K2 & _). cbn [fst snd app List.length seq combine map].
  assert (Hne : this <> []). { intros ->. cbn in K2. unfold width in K2. lia. }
  eexists (drop (4 * Z.of_nat (List.length this)) P), _. split; [reflexivity|]. split; [reflexivity|].
  destruct (drop_bottom (4 * Z.of_nat (List.length this)) P B) as (D1 & D2); [lia|].
  split; [apply parse_ell_line; auto; now apply flags_hd|]. split; [|split].
  - constructor; auto.
    + eapply flags_drop; [exact Fl | discriminate].
    + intros f' n' Hf' En'. destruct (Nd f' n' (or_intror Hf') En') as (Q & Q2). split; auto.
      apply placed_drop; auto. rewrite Forall_forall in Sf. specialize (Sf f' Hf'). unfold wider in Sf. lia.
    + destruct st; [constructor|]. cbn in T. now inversion T.
    + intros f' st' E Hv'. rewrite (inv_novert _ _ _ _ _ _ _ I E) in Hv'. discriminate.
  - intros w Hw. rewrite has_clear.
    + destruct d; cbn in Hw; repeat (destruct Hw as [<- | Hw]; [reflexivity|]); contradiction.
    + apply (pre_clear d); auto; [now right | split; reflexivity].
  - apply String.eqb_neq. apply not_empty; auto. discriminate.
Qed.

Lemma inv_draw f n st sk seen P : inv (f :: st) sk seen P -> fr_item f = Node n -> ~ In n seen ->
  exists P' l0 s, fst (draw f (n :: seen)) = (l0 ++ [Row (Node n) (fr_parent f) (snd (expand f n (n :: seen))) s])%list /\
    row_nodes l0 = [] /\ flat_map row_edges l0 = [] /\
    (forall r ns es, parse_lines gl P' r = Ok (ns, es) ->
       parse_lines gl P (map line_text l0 ++ s :: r) =
         Ok (lbl n :: ns, (row_edges (Row (Node n) (fr_parent f) (snd (expand f n (n :: seen))) s) ++ es)%list)) /\
    inv (snd (draw f (n :: seen)) ++ st) sk (n :: seen) P' /\
    (forall w l, In w (List.tl (words d)) -> In l (l0 ++ [Row (Node n) (fr_parent f) (snd (expand f n (n :: seen))) s])%list -> has w (line_text l) = false /\ line_text l <> gl_empty gl).
Proof.
  intros I Ef Hseen. pose proof I as [B Fl S Ind Nd T Hd Sk].
  destruct (Nd f n (or_introl eq_refl) Ef) as (Hpl & Hn & Hpar).
  inversion S as [|? ? Ss Sf]; subst. inversion Ind as [|? ? If Is]; subst.
  destruct (expand_nodes f n (n :: seen) Hn) as (cs & Ecs & NDcs & Hcs & Hund & Hoth).
  assert (Hl : Forall plain_label (map lbl (snd (expand f n (n :: seen))))).
  { apply Forall_forall. intros s Hs. apply in_map_iff in Hs as (u & <- & Hu). auto. }
  unfold NetModel.draw. rewrite Ef. pose proof (indents_next f If) as Hx.
  destruct (expand f n (n :: seen)) as [ch oth] eqn:Ex. cbn [fst snd] in Ecs, Hoth, Hl. subst ch. cbn [snd] in *.
  destruct (prefixes gl f) as [[this next] vert]. destruct Hx as (H1 & H2 & H3 & H4).
  (* the only child of a vertical edge *)
  set (nextv := vc && (set_size eqb _ =? 1)).
  assert (Hnextv : nextv = true -> exists c, cs = [c]).
  { unfold nextv. intros Hx. apply andb_true_iff in Hx as (_ & Hx). apply Z.eqb_eq in Hx.
    assert (Er : (match nt_directed g, fr_parent f with
              | false, Some p => filter (fun i => negb (item_eqb eqb i (Node p))) (map Node cs)
              | _, _ => map Node cs end) = map Node cs).
    { destruct (nt_directed g) eqn:Ed; auto. destruct (fr_parent f) as [p|] eqn:Ep; auto.
      specialize (Hund eq_refl). specialize (Hpar p eq_refl). clear -Hund Hpar eqb_ok.
      induction cs as [|c cs IH]; cbn [map filter]; auto.
      assert (E : item_eqb eqb (Node c) (Node p) = false).
      { cbn. destruct (eqb c p) eqn:E; auto. apply eqb_ok in E. subst c. elim (Hund p); [now left|]. now right. }
      rewrite E. cbn [negb]. f_equal. apply IH. intros x Hx. apply Hund. now right. }
    rewrite Er in Hx. rewrite set_size_length in Hx.
    - rewrite map_length in Hx. destruct cs as [|c [|c' cs]]; cbn in Hx; try lia. eauto.
    - apply Injective_map_NoDup; [|exact NDcs]. intros a b E. now inversion E. }
  clearbody nextv. rewrite map_length. cbn [fst snd].
  set (kids := map _ (combine _ _)).
  assert (Hkids : forall f', In f' kids -> fr_parent f' = Some n /\ fr_indents f' = next /\ fr_vertical f' = nextv /\
             exists c, fr_item f' = Node c /\ In c cs).
  { unfold kids. intros f' Hf. apply in_map_iff in Hf as ((k & i) & <- & Hki). cbn [fr_parent fr_indents fr_vertical fr_item fst snd].
    apply in_combine_r in Hki. apply in_map_iff in Hki as (c & <- & Hc). eauto 10. }
  assert (Lkids : List.length kids = List.length cs).
  { unfold kids. rewrite map_length, combine_length, seq_length, map_length. lia. }
  clearbody kids.
  (* the invariant, for whatever new stack *)
  assert (Hinv : forall i P', Z.of_nat (List.length next) * 4 - 1 = i ->
     Forall (fun x => In x indents) next -> next <> [] ->
     (forall f', In f' st -> width f' + 1 <= Z.of_nat (List.length next)) ->
     (exists e, In e P' /\ pf_indent e < 0) -> flags None (PF (Some (lbl n)) i false :: P') ->
     (forall f' n', In f' st -> fr_item f' = Node n' -> placed (PF (Some (lbl n)) i false :: P') f') ->
     inv (kids ++ st) sk (n :: seen) (PF (Some (lbl n)) i false :: P')).
  { intros i P' Hi Hnx Hnn Hw (e & He1 & He2) Hfl Hp. constructor.
    - exists e. split; auto. now right.
    - exact Hfl.
    - clear -Hkids Ss Hw. induction kids as [|k kids IH]; cbn [app]; auto.
      constructor; [apply IH; intros f' Hf'; apply Hkids; now right|]. apply Forall_forall. intros f' Hf'.
      assert (Ek : width k = Z.of_nat (List.length next)).
      { unfold width. now rewrite (proj1 (proj2 (Hkids k (or_introl eq_refl)))). }
      unfold wider. rewrite Ek. apply in_app_or in Hf' as [Hf' | Hf'].
      + unfold width. rewrite (proj1 (proj2 (Hkids f' (or_intror Hf')))). lia.
      + specialize (Hw f' Hf'). lia.
    - apply Forall_app. split; auto. apply Forall_forall. intros f' Hf'. now rewrite (proj1 (proj2 (Hkids f' Hf'))).
    - intros f' n' Hf' En'. apply in_app_or in Hf' as [Hf' | Hf'].
      + destruct (Hkids f' Hf') as (K1 & K2 & K3 & c & K4 & K5). rewrite En' in K4. inversion K4; subst n'. split; [|split].
        * exists [], false, P'. cbn [app]. rewrite K1. cbn [option_map]. unfold width. rewrite K2. split; [|constructor].
          f_equal. f_equal. lia.
        * auto.
        * intros p Ep. rewrite K1 in Ep. inversion Ep; subst p. now left.
      + destruct (Nd f' n' (or_intror Hf') En') as (_ & Q1 & Q2). split; [eauto|]. split; auto. intros p Ep. right. auto.
    - cbn in T. destruct kids as [|k kids]; cbn [app List.tl].
      + destruct st; [constructor|]. now inversion T.
      + apply Forall_app. split; auto. apply Forall_forall. intros f' Hf'.
        destruct (Hkids f' (or_intror Hf')) as (_ & _ & -> & _). destruct nextv; auto. destruct (Hnextv eq_refl) as (c & ->).
        cbn in Lkids. destruct kids; [destruct Hf' | cbn in Lkids; lia].
    - intros f' st' E Hv'. destruct kids as [|k kids]; cbn [app] in E.
      + rewrite (inv_novert _ _ _ _ _ _ _ I E) in Hv'. discriminate.
      + inversion E; subst k st'. destruct (Hkids f' (or_introl eq_refl)) as (K1 & K2 & K3 & c & K4 & K5).
        rewrite K3 in Hv'. destruct (Hnextv Hv') as (c' & ->). cbn in Lkids. destruct kids; [|cbn in Lkids; lia].
        exists c. split; auto. split; [now rewrite K2|]. right. split; [|split].
        * rewrite K1. intros Hs. now apply Sk in Hs.
        * cbn [app]. apply Forall_forall. intros f'' Hf''. unfold width at 2. rewrite K2. specialize (Hw f'' Hf''). lia.
        * rewrite K1. exists false, P'. cbn [option_map]. f_equal. f_equal. unfold width. rewrite K2. lia.
    - intros p Hp'. right. auto. }
  destruct vert.
  - (* below a vertical edge *)
    specialize (H3 eq_refl). destruct (Hd f st eq_refl H3) as (n' & En' & Hi & Hor).
    rewrite Ef in En'. inversion En'; subst n'. destruct Hor as [Hor | (_ & Hw & v & below & EP)]; [contradiction|].
    destruct (H2 eq_refl) as [(-> & ->) | Hbad]; [|contradiction].
    assert (Hsegs : Forall (fun x => In x (segs d)) (fr_indents f)).
    { eapply Forall_impl; [|exact If]. intros x. apply indents_segs. }
    eexists _, [Text _], _. split; [reflexivity|]. split; [reflexivity|]. split; [reflexivity|]. split; [|split].
    + intros r ns es Hr. cbn [map line_text app parse_lines]. rewrite EP.
      rewrite parse_vertical_line by assumption. cbn [bind pf_node pf_indent].
      rewrite (parse_node_line _ (fr_indents f) n oth (PF (option_map lbl (fr_parent f)) (4 * width f - 1) true) below); auto; try discriminate.
      cbn [bind]. rewrite Hr. cbn [bind app pf_node row_edges]. do 2 f_equal. now destruct (fr_parent f).
    + apply Hinv; auto.
      * lia.
      * intros f' Hf'. rewrite Forall_forall in Hw. specialize (Hw f' Hf'). unfold width in *. lia.
      * destruct B as (e & He1 & He2). rewrite EP in He1. destruct He1 as [<- | He1].
        -- cbn in He2. exists (PF (option_map lbl (fr_parent f)) (4 * width f - 1) true). split; [now left | exact He2].
        -- exists e. split; auto. now right.
      * cbn [flags pf_vertical pf_indent]. split; [discriminate|]. split; [intros _; f_equal; unfold width; lia|].
        rewrite EP in Fl. cbn in Fl. apply Fl.
      * intros f' n' Hf' En''. destruct (Nd f' n' (or_intror Hf') En'') as (Q & _).
        rewrite Forall_forall in Hw. specialize (Hw f' Hf'). apply placed_push; [|cbn [pf_indent]; unfold width in *; lia].
        destruct Q as (a & v' & b & Eq & Ha). rewrite EP in Eq. destruct a as [|x a]; cbn [app] in Eq.
        -- apply (f_equal (fun l => pf_indent (List.hd (PF None 0 false) l))) in Eq. cbn [List.hd pf_indent] in Eq. lia.
        -- assert (Ex1 := f_equal (List.hd (PF None 0 false)) Eq). assert (Ex2 := f_equal (@List.tl _) Eq).
           cbn [List.hd] in Ex1. cbn [List.tl] in Ex2. subst x below.
           exists (PF (option_map lbl (fr_parent f)) (4 * width f - 1) true :: a)%list, v', b. split; auto.
           inversion Ha as [|? ? Ha1 Ha2]; subst. constructor; auto.
    + intros w l Hw' Hin. destruct Hin as [<- | [<- | []]]; cbn [line_text].
      * split.
        -- rewrite has_clear.
           ++ destruct d; cbn in Hw'; repeat (destruct Hw' as [<- | Hw']; [reflexivity|]); contradiction.
           ++ apply (pre_clear d); auto; [now right | destruct d; split; reflexivity].
        -- apply String.eqb_neq, not_empty; auto. destruct d; discriminate.
      * rewrite suffix_tail by assumption. split.
        -- rewrite (line_has d); auto; [|now right|].
           ++ apply tail_no_word; auto.
           ++ destruct (map lbl oth); [reflexivity|]. now destruct d.
        -- apply String.eqb_neq, not_empty; auto. destruct (Hlab n Hn) as (K & _). destruct (lbl n); [congruence | discriminate].
  - destruct (H1 eq_refl) as (K1 & K2 & K3 & K4).
    assert (Hne : this <> []). { intros ->. cbn in K2. unfold width in K2. lia. }
    destruct Hpl as (a & v & b & EP & Ha).
    assert (Hdrop : drop (4 * Z.of_nat (List.length this) - 1) P = PF (option_map lbl (fr_parent f)) (4 * width f - 1) v :: b).
    { rewrite EP, drop_above.
      - cbn [drop pf_indent]. destruct (4 * Z.of_nat (List.length this) - 1 <=? 4 * width f - 1) eqn:E; [lia | reflexivity].
      - eapply Forall_impl; [|exact Ha]. intros e He. cbn beta in He. lia. }
    eexists _, [], _. split; [reflexivity|]. split; [reflexivity|]. split; [reflexivity|]. split; [|split].
    + intros r ns es Hr. cbn [map line_text app parse_lines].
      rewrite (parse_node_line _ this n oth (PF (option_map lbl (fr_parent f)) (4 * width f - 1) v) b); auto.
      * cbn [bind]. rewrite Hr. cbn [bind app pf_node row_edges]. do 2 f_equal. now destruct (fr_parent f).
      * intros Hv. destruct P as [|x P]; [now destruct a|]. cbn [List.hd flags] in *. destruct Fl as (Fl & _). now apply Fl in Hv.
      * rewrite EP. now destruct a.
    + rewrite <- Hdrop. apply Hinv.
      * lia.
      * exact K3.
      * intros ->. cbn in K4. unfold width in K4. lia.
      * intros f' Hf'. rewrite Forall_forall in Sf. specialize (Sf f' Hf'). unfold wider in Sf. lia.
      * apply drop_bottom; auto. unfold width in K2. lia.
      * cbn [flags pf_vertical pf_indent]. split; [discriminate|].
        assert (Fd := flags_drop None (4 * Z.of_nat (List.length this) - 1) P Fl ltac:(discriminate)). rewrite Hdrop in *.
        cbn [flags pf_vertical pf_indent] in *. split; [|apply Fd]. intros Hv. destruct Fd as (Fd & _). now apply Fd in Hv.
      * intros f' n' Hf' En''. destruct (Nd f' n' (or_intror Hf') En'') as (Q & _).
        rewrite Forall_forall in Sf. specialize (Sf f' Hf'). unfold wider in Sf.
        apply placed_push; [apply placed_drop; auto; lia | cbn [pf_indent]; lia].
    + intros w l Hw' Hin. destruct Hin as [<- | []]; cbn [line_text].
      rewrite suffix_tail by assumption. split.
      * rewrite (line_has d); auto; [|now right|].
        -- apply tail_no_word; auto.
        -- destruct (map lbl oth); [reflexivity|]. now destruct d.
      * apply String.eqb_neq, not_empty; auto. destruct (Hlab n Hn) as (K & _). destruct (lbl n); [congruence | discriminate].
Qed.

Lemma omemb_In (p : option N) l : omemb eqb p l = true <-> In p l.
Proof.
  unfold omemb. rewrite existsb_exists. split.
  - intros (x & Hx & E). assert (p = x); [|now subst]. destruct p, x; cbn in E; try discriminate; auto. apply eqb_ok in E. now subst.
  - intros H. exists p. split; auto. destruct p; cbn; auto. now apply eqb_ok.
Qed.

Lemma parse_loop fuel : forall st sk seen ls P, loop fuel st sk seen = Ok ls -> inv st sk seen P ->
  parse_lines gl P (map line_text ls) = Ok (map lbl (row_nodes ls), flat_map row_edges ls) /\
  (forall l, In l ls -> line_text l <> gl_empty gl /\ forall w, In w (List.tl (words d)) -> has w (line_text l) = false).
Proof.
  assert (Hw0 : exists w, In w (List.tl (words d))) by (destruct d; cbn; eauto).
  destruct Hw0 as (w0 & Hw0).
  induction fuel as [|fuel IH]; intros st sk seen ls P.
  { destruct st; cbn; intros E; inversion E; subst. split; [reflexivity | intros l []]. }
  destruct st as [|f st]; cbn [NetModel.loop].
  { intros E; inversion E; subst. split; [reflexivity | intros l []]. }
  destruct (fr_item f) as [n|] eqn:Ef.
  - match goal with |- context[if ?b then _ else _] => destruct b eqn:Eb end.
    + intros H I. eapply IH; [exact H|]. eapply inv_redo; eauto.
      apply andb_true_iff in Eb as (Eb & _). apply andb_true_iff in Eb as (_ & Eb). apply omemb_In in Eb.
      destruct (memb eqb n seen) eqn:Em.
      * left. apply (memb_In eqb eqb_ok) in Em. auto.
      * right. apply (memb_false eqb eqb_ok) in Em. auto.
    + clear Eb. destruct (memb eqb n seen) eqn:Em.
      * intros H I. eapply IH; [exact H|]. eapply inv_skip; eauto.
      * apply (memb_false eqb eqb_ok) in Em. intros H I.
        destruct (inv_draw f n st sk seen P I Ef Em) as (P' & l0 & s & Ed & Hl0 & He0 & Hp & I' & Hwd).
        destruct (draw f (n :: seen)) as [l fs] eqn:Edr. cbn [fst snd] in *. subst l.
        apply bind_ok in H as (r & Hr & E). inversion E; subst ls. clear E.
        destruct (IH _ _ _ _ _ Hr I') as (IH1 & IH2). split.
        -- rewrite <- app_assoc. cbn [app]. rewrite map_app. cbn [map line_text].
           rewrite (Hp _ _ _ IH1), row_nodes_app, Hl0, flat_map_app, He0. reflexivity.
        -- intros x Hx. apply in_app_or in Hx as [Hx | Hx]; [|auto]. split.
           ++ apply (Hwd w0 x Hw0 Hx).
           ++ intros w Hw. apply (Hwd w x Hw Hx).
  - intros H I. destruct (inv_ell f st sk seen P I Ef) as (P' & s & Ed & Hfs & Hp & I' & Hwd & Hne).
    destruct (draw f seen) as [l fs]. cbn [fst snd] in *. subst l fs. cbn [app] in H.
    apply bind_ok in H as (r & Hr & E). inversion E; subst ls. clear E.
    destruct (IH _ _ _ _ _ Hr I') as (IH1 & IH2). split.
    + cbn [app map line_text parse_lines]. rewrite Hp. cbn [bind]. rewrite IH1. reflexivity.
    + intros x [<- | Hx]; [|auto]. split; auto.
Qed.

Lemma roots_frame (sources : list N) f : In f (roots sources) ->
  fr_parent f = None /\ fr_indents f = [] /\ fr_vertical f = false /\ exists n, fr_item f = Node n /\ In n sources.
Proof.
  unfold roots. intros H. apply in_map_iff in H as ((k & n) & <- & H). cbn. apply in_combine_r in H. eauto 10.
Qed.
Lemma inv_roots sources : (forall s, In s sources -> In s (nt_nodes g)) -> inv (roots sources) [] [] [PF None (-1) false].
Proof.
  intros Hs. assert (R := roots_frame sources). remember (roots sources) as st eqn:E. clear E.
  constructor.
  - eexists. split; [now left | cbn; lia].
  - cbn. split; [discriminate | auto].
  - clear Hs. induction st as [|f st IH]; constructor; [apply IH; intros f' Hf; apply R; now right|].
    apply Forall_forall. intros f' Hf. unfold wider, width.
    destruct (R f (or_introl eq_refl)) as (_ & -> & _). destruct (R f' (or_intror Hf)) as (_ & -> & _). lia.
  - apply Forall_forall. intros f Hf. destruct (R f Hf) as (_ & -> & _). constructor.
  - intros f n Hf En. destruct (R f Hf) as (E1 & E2 & E3 & n' & E4 & E5). rewrite En in E4. inversion E4; subst n'.
    split; [|split; [auto|]].
    + exists [], false, []. rewrite E1. unfold width. rewrite E2. split; [reflexivity | constructor].
    + intros p Ep. congruence.
  - apply Forall_forall. intros f Hf. apply (R f). destruct st; [destruct Hf | now right].
  - intros f st' -> Hv. destruct (R f (or_introl eq_refl)) as (_ & _ & E & _). congruence.
  - intros p [].
Qed.
End Parse.

(** ** What shows that a graph is directed *)
Section Marks.
Context {N : Type} (eqb : N -> N -> bool) (eqb_ok : forall a b, eqb a b = true <-> a = b).
Context (g : net N) (vc : bool).
Notation draw := (draw eqb g ascii_directed None vc).
Notation loop := (loop eqb g ascii_directed None vc).

Definition marked (ls : list (line N)) : Prop :=
  exists l i, In l ls /\ In i ["L-> "; "|-> "; "<-"; "!"]%string /\ has i (line_text l) = true.
Lemma marked_l a b : marked a -> marked (a ++ b).
Proof. intros (l & i & H & K). exists l, i. split; auto. apply in_or_app. auto. Qed.
Lemma marked_r a b : marked b -> marked (a ++ b).
Proof. intros (l & i & H & K). exists l, i. split; auto. apply in_or_app. auto. Qed.

(* a frame that will draw an arrow *)
Definition pending (f : frame N) : Prop :=
  fr_last f = true /\ fr_indents f <> [] /\ (fr_item f <> Ell -> fr_parent f <> None).
Lemma draw_pending f seen : fr_last f = true -> fr_indents f <> [] -> marked (fst (draw f seen)).
Proof.
  intros Hl Hi. unfold NetModel.draw, prefixes. destruct (fr_indents f) as [|x ind] eqn:E; [congruence|]. rewrite <- E.
  destruct (fr_vertical f) eqn:Ev.
  - destruct (match fr_item f with Node _ => _ | Ell => _ end) as [[ch oth] text]. cbn [fst].
    eexists _, "!"%string. split; [left; reflexivity|]. split; [cbn; auto 10|]. cbn [line_text].
    apply has_app_r. reflexivity.
  - rewrite Hl. destruct (match fr_item f with Node _ => _ | Ell => _ end) as [[ch oth] text]. cbn [fst app].
    eexists _, "L-> "%string. split; [left; reflexivity|]. split; [cbn; auto 10|]. cbn [line_text].
    replace (String.concat "" (fr_indents f ++ [gl_last ascii_directed])) with
            (String.concat "" (fr_indents f) ++ "L-> ")%string.
    + rewrite <- app_assoc_s. apply has_app_r, (has_here "L-> ").
    + clear. induction (fr_indents f) as [|y l IH]; [reflexivity|]. cbn [app]. rewrite !sconcat_cons, <- IH.
      now rewrite app_assoc_s.
Qed.

Lemma loop_pending fuel : forall st sk seen ls, loop fuel st sk seen = Ok ls -> (exists f, In f st /\ pending f) -> marked ls.
Proof.
  induction fuel as [|fuel IH]; intros st sk seen ls.
  { destruct st; cbn; intros E (f' & Hf & _); [destruct Hf | discriminate]. }
  destruct st as [|f st]; cbn [NetModel.loop].
  { intros E (f' & Hf & _). destruct Hf. }
  destruct (fr_item f) as [n|] eqn:Ef.
  - match goal with |- context[if ?b then _ else _] => destruct b eqn:Eb end.
    + intros H (f' & [<- | Hf] & Hp).
      * eapply IH; [exact H|]. eexists. split; [right; left; reflexivity|]. destruct Hp as (_ & Hi & _). split; [reflexivity|]. split; [exact Hi|]. cbn. congruence.
      * eapply IH; [exact H|]. exists f'. split; auto. right. now right.
    + destruct (memb eqb n seen) eqn:Em.
      * intros H (f' & [<- | Hf] & Hp).
        -- exfalso. destruct Hp as (Hl & _ & Hp). rewrite Hl in Eb. cbn [andb] in Eb.
           assert (K : omemb eqb (fr_parent f) (fr_parent f :: sk) = true) by (apply (omemb_In eqb eqb_ok); now left).
           rewrite K in Eb. cbn [andb] in Eb. rewrite Ef in Hp. specialize (Hp ltac:(discriminate)). destruct (fr_parent f); [discriminate | congruence].
        -- eapply IH; [exact H|]. exists f'. auto.
      * intros H Hex. destruct (draw f (n :: seen)) as [l fs] eqn:Ed. apply bind_ok in H as (r & Hr & E). inversion E; subst ls.
        destruct Hex as (f' & [<- | Hf] & Hp).
        -- apply marked_l. change l with (fst (l, fs)). rewrite <- Ed. apply draw_pending; apply Hp.
        -- apply marked_r. eapply IH; [exact Hr|]. exists f'. split; auto. apply in_or_app. auto.
  - intros H Hex. destruct (draw f seen) as [l fs] eqn:Ed. apply bind_ok in H as (r & Hr & E). inversion E; subst ls.
    destruct Hex as (f' & [<- | Hf] & Hp).
    + apply marked_l. change l with (fst (l, fs)). rewrite <- Ed. apply draw_pending; apply Hp.
    + apply marked_r. eapply IH; [exact Hr|]. exists f'. split; auto. apply in_or_app. auto.
Qed.

(* a node with children leaves a frame that will draw an arrow *)
Lemma kids_pending f n seen : nt_directed g = true -> (forall n, nt_collapse g n = false) -> fr_item f = Node n -> nt_succ g n <> [] ->
  exists f', In f' (snd (draw f seen)) /\ pending f'.
Proof.
  intros Hd Hcol Ef Hs. unfold NetModel.draw. rewrite Ef.
  assert (Hnext : forall this next vert, prefixes ascii_directed f = (this, next, vert) -> next <> []).
  { unfold prefixes. intros this next vert. destruct (fr_indents f) as [|x l]; destruct (fr_last f), (fr_vertical f); intros E; inversion E; try discriminate; now destruct l. }
  destruct (prefixes ascii_directed f) as [[this next] vert]. specialize (Hnext this next vert eq_refl).
  unfold NetModel.expand. rewrite Hcol, Hd. cbn [at_depth orb snd].
  set (rest := vc && _). clearbody rest.
  set (k := List.length (map Node (nt_succ g n))).
  destruct (exists_last Hs) as (l' & c & El).
  exists (mkFr (Some n) (Node c) next true rest). split; [|split; [reflexivity|split; [exact Hnext|discriminate]]].
  apply in_map_iff. exists ((k - 1)%nat, Node c). cbn [fst snd].
  assert (Hk : k = S (List.length l')) by (unfold k; rewrite map_length, El, app_length; cbn; lia).
  split.
  - rewrite Hk. replace (S (S (List.length l') - 1)) with (S (List.length l')) by lia. now rewrite Nat.eqb_refl.
  - rewrite El, map_app. cbn [map]. rewrite Hk. rewrite seq_S.
    replace (S (List.length l') - 1)%nat with (0 + List.length l')%nat by lia.
    clear. generalize 0%nat as a. induction l' as [|x l' IH]; intros a; cbn [List.length seq map app combine].
    + now left.
    + right. specialize (IH (S a)). replace (S a + List.length l')%nat with (a + S (List.length l'))%nat in IH by lia. exact IH.
Qed.

Lemma loop_marked fuel : nt_directed g = true -> (forall n, nt_collapse g n = false) ->
  forall st sk seen ls u, loop fuel st sk seen = Ok ls -> In u (row_nodes ls) -> nt_succ g u <> [] -> marked ls.
Proof.
  intros Hd Hcol. induction fuel as [|fuel IH]; intros st sk seen ls u.
  { destruct st; cbn; intros E; inversion E; subst. intros []. }
  destruct st as [|f st]; cbn [NetModel.loop].
  { intros E; inversion E; subst. intros []. }
  destruct (fr_item f) as [n|] eqn:Ef.
  - match goal with |- context[if ?b then _ else _] => destruct b eqn:Eb end.
    + intros H. eapply IH, H.
    + destruct (memb eqb n seen) eqn:Em.
      * intros H. eapply IH, H.
      * intros H Hu Hs. destruct (draw f (n :: seen)) as [l fs] eqn:Ed. apply bind_ok in H as (r & Hr & E). inversion E; subst ls.
        rewrite row_nodes_app in Hu. apply in_app_or in Hu as [Hu | Hu]; apply marked_r; [|eapply IH; eauto].
        destruct (draw_node eqb g ascii_directed None vc f n (n :: seen) Ef) as (Hrn & _). rewrite Ed in Hrn. cbn [fst] in Hrn.
        rewrite Hrn in Hu. destruct Hu as [<- | []].
        destruct (kids_pending f n (n :: seen) Hd Hcol Ef Hs) as (f' & Hf' & Hp). rewrite Ed in Hf'.
        eapply loop_pending; [exact Hr|]. exists f'. split; auto. apply in_or_app. now left.
  - intros H Hu Hs. destruct (draw f seen) as [l fs] eqn:Ed. apply bind_ok in H as (r & Hr & E). inversion E; subst ls.
    destruct (draw_ell eqb g ascii_directed None vc f seen Ef) as (Hrn & _). rewrite Ed in Hrn. cbn [fst] in Hrn.
    rewrite row_nodes_app, Hrn in Hu. apply marked_r. eapply IH; eauto.
Qed.

(* the first line is the row of a root; an edge is marked on a later line *)
Lemma first_line fuel sources gl ls : NetModel.loop eqb g gl None vc fuel (roots sources) [] [] = Ok ls -> sources <> [] ->
  exists n o r s, ls = Row (Node n) None o s :: r /\ exists t, (s = gl_newtree_last gl ++ t)%string \/ (s = gl_newtree_mid gl ++ t)%string.
Proof.
  destruct fuel as [|fuel]; destruct sources as [|n sources]; try congruence; cbn -[draw]; try discriminate.
  intros H _. cbn in H. rewrite andb_false_r in H.
  match type of H with context[NetModel.draw _ _ _ _ _ ?f ?s] => destruct (NetModel.draw eqb g gl None vc f s) as [l fs] eqn:Ed end.
  apply bind_ok in H as (r & Hr & E). inversion E; subst ls. clear E Hr.
  unfold NetModel.draw, prefixes in Ed. cbn [fr_item fr_indents fr_last fr_vertical fr_parent] in Ed.
  match type of Ed with context[NetModel.expand _ _ _ ?f ?x ?s] => destruct (NetModel.expand eqb g None f x s) as [ch oth] end.
  match type of Ed with context[if ?b then _ else _] => destruct b end; cbn [fst snd app] in Ed; inversion Ed; subst;
    cbn [app]; do 4 eexists; (split; [reflexivity|]); cbn [String.concat]; eauto.
Qed.
Lemma rest_marked fuel sources l r : nt_directed g = true -> (forall n, nt_collapse g n = false) ->
  loop fuel (roots sources) [] [] = Ok (l :: r) -> (exists u, In u (row_nodes (l :: r)) /\ nt_succ g u <> []) -> marked r.
Proof.
  intros Hd Hcol H (u & Hu & Hs). destruct sources as [|n sources].
  { destruct fuel; cbn in H; inversion H; subst. }
  destruct fuel as [|fuel]; [discriminate|].
  set (f := mkFr None (Node n) [] (Nat.eqb 1 (S (List.length sources))) false).
  assert (Ed : exists s o fs, draw f [n] = ([Row (Node n) None o s], fs)).
  { unfold f, NetModel.draw, prefixes. cbn [fr_item fr_indents fr_last fr_vertical fr_parent].
    match goal with |- context[NetModel.expand _ _ _ ?f ?x ?s] => destruct (NetModel.expand eqb g None f x s) as [ch oth] end.
    match goal with |- context[if ?b then _ else _] => destruct b end; cbn [fst snd app]; eauto. }
  destruct Ed as (s & o & fs & Ed).
  cbn [NetModel.loop roots List.length seq combine map fst snd fr_item memb existsb] in H. fold f in H.
  cbn [fr_parent f fr_last omemb existsb] in H. rewrite !andb_false_r in H. rewrite Ed in H.
  apply bind_ok in H as (r' & Hr & E). cbn [app] in E. inversion E; subst l r'. clear E.
  cbn [row_nodes] in Hu. destruct Hu as [<- | Hu].
  - destruct (kids_pending f n [n] Hd Hcol eq_refl Hs) as (f' & Hf' & Hp). rewrite Ed in Hf'.
    eapply loop_pending; [exact Hr|]. exists f'. split; auto. apply in_or_app. now left.
  - eapply loop_marked; eauto.
Qed.

(* without edges only roots are drawn, the same for both kinds *)
Lemma loop_isolated fuel : (forall n, In n (nt_nodes g) -> nt_succ g n = [] /\ nt_pred g n = []) ->
  forall st sk seen, (forall f, In f st -> fr_parent f = None /\ fr_indents f = [] /\ fr_vertical f = false /\ exists n, fr_item f = Node n /\ In n (nt_nodes g)) ->
  loop fuel st sk seen = NetModel.loop eqb g ascii_undirected None vc fuel st sk seen.
Proof.
  intros Hiso. induction fuel as [|fuel IH]; intros st sk seen Hst; [reflexivity|].
  destruct st as [|f st]; [reflexivity|]. cbn [NetModel.loop].
  destruct (Hst f (or_introl eq_refl)) as (E1 & E2 & E3 & n & E4 & E5). rewrite E4, E1, !andb_false_r.
  destruct (memb eqb n seen); [apply IH; intros f' Hf'; apply Hst; now right|].
  destruct (Hiso n E5) as (S1 & S2).
  unfold NetModel.draw, prefixes, NetModel.expand. rewrite E4, E2, S1, S2, E3.
  cbn [filter at_depth orb fst snd map].
  destruct (fr_last f); cbn [fst snd]; destruct (nt_directed g), (nt_collapse g n), (fr_parent f); cbn [fst snd filter map List.length seq combine app];
    (rewrite IH; [reflexivity|]; intros f' Hf'; apply Hst; now right).
Qed.
End Marks.

Lemma guess_false dir undir ls : (forall l i, In l ls -> In i dir -> has i l = false) -> guess undir dir ls = false.
Proof.
  induction ls as [|l ls IH]; intros H; [reflexivity|]. cbn [guess].
  destruct (existsb (fun i => has i l) undir); [reflexivity|].
  assert (E : existsb (fun i => has i l) dir = false).
  { destruct (existsb _ dir) eqn:E; auto. apply existsb_exists in E as (i & Hi & E). rewrite H in E; auto. now left. }
  rewrite E. apply IH. intros x i Hx. apply H. now right.
Qed.
Lemma guess_true dir undir ls : (forall l i, In l ls -> In i undir -> has i l = false) ->
  (exists l i, In l ls /\ In i dir /\ has i l = true) -> guess undir dir ls = true.
Proof.
  induction ls as [|l ls IH]; intros H (x & i & Hx & Hi & E); [destruct Hx|]. cbn [guess].
  assert (Eu : existsb (fun i => has i l) undir = false).
  { destruct (existsb _ undir) eqn:Eu; auto. apply existsb_exists in Eu as (j & Hj & Eu). rewrite H in Eu; auto. now left. }
  rewrite Eu. destruct (existsb (fun i => has i l) dir) eqn:Ed; [reflexivity|].
  apply IH; [intros y j Hy; apply H; now right|]. destruct Hx as [<- | Hx]; [|eauto].
  exfalso. assert (K : existsb (fun i => has i l) dir = true) by (apply existsb_exists; eauto). congruence.
Qed.
