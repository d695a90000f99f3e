(* C16, exactly: what the default mode of encode gives for streams that name a
   component more than once. *)
From Verif Require Import Py PyProofs ChanModel ChanSpec ChanProofs ChanSetProofs ChanStreamProofs EncodeModel EncodeSpec EncodeProofs EncodeProps.
From Coq Require Import ZifyBool Permutation.
Local Open Scope Z_scope.

(* the data of y comes directly after the data of x in an array of the item
   (components without channels may stand between them) *)
Definition next_to {X} (gs : list (@group X)) (x y : string) : Prop :=
  exists g l1 bx mid b2 l2, In g gs /\ g = (l1 ++ (x, bx) :: mid ++ (y, b2) :: l2)%list /\ Forall (fun cb => snd cb = []) mid.

(* the components of a stream that are kept: after x, the repetitions of the
   component next to x count once; a repetition elsewhere is kept *)
Inductive kept {X} (gs : list (@group X)) : list string -> list string -> Prop :=
| kept_nil : kept gs [] []
| kept_alone x l l' : match l with [] => True | y :: _ => ~ next_to gs x y end -> kept gs l l' -> kept gs (x :: l) (x :: l')
| kept_run x y k l l' : next_to gs x y -> match l with [] => True | z :: _ => z <> y end -> kept gs l l' ->
    kept gs (x :: repeat y (S k) ++ l) (x :: y :: l').

Lemma repeat_app_inj (y y' : string) k k' l l' : (repeat y (S k) ++ l = repeat y' (S k') ++ l')%list ->
  match l with [] => True | z :: _ => z <> y end -> match l' with [] => True | z :: _ => z <> y' end ->
  y = y' /\ k = k' /\ l = l'.
Proof.
  cbn [repeat List.app]. intros E H H'. injection E as <- E. split; [reflexivity|].
  revert k' E. induction k as [|k IH]; intros [|k'] E; cbn [repeat List.app] in E.
  - auto.
  - subst l. cbn in H. congruence.
  - subst l'. cbn in H'. congruence.
  - injection E as E. destruct (IH k' E) as [-> ->]. auto.
Qed.

Lemma kept_fun {X} (gs : list (@group X)) l a : kept gs l a -> forall b, kept gs l b -> a = b.
Proof.
  induction 1 as [|x l l' Hx Hl IH|x y k l l' Hxy Hy Hl IH]; intros b Hb.
  - inversion Hb; reflexivity.
  - inversion Hb as [|x0 l0 l0' Hx0 Hl0|x0 y0 k0 l0 l0' Hxy0 Hy0 Hl0 E]; subst.
    + f_equal. now apply IH.
    + exfalso. cbn [repeat List.app] in Hx. contradiction.
  - remember (x :: repeat y (S k) ++ l)%list as m eqn:Em. destruct Hb as [|x0 l0 l0' Hx0 Hl0|x0 y0 k0 l0 l0' Hxy0 Hy0 Hl0]; [discriminate| |].
    + exfalso. injection Em as -> ->. cbn [repeat List.app] in Hx0. contradiction.
    + assert (Ex : x0 = x) by congruence. subst x0. apply (f_equal (@tl string)) in Em. cbn [tl] in Em. apply (repeat_app_inj y0 y k0 k l0 l) in Em as (-> & -> & ->); [|assumption..].
      do 2 f_equal. now apply IH.
Qed.

Section Exact.
Context {X : Type} (gs : list (@group X)) (item : list (string * list X)) (Hi : item_of gs item).
Notation entry := (entry gs). Notation pseg := (pseg item). Notation fits := (fits item).

Definition W (g : @group X) : Z := Z.of_nat (List.length (garr g)).
Lemma W_app a b : W (a ++ b) = W a + W b.
Proof. unfold W, garr. rewrite map_app, concat_app, app_length. lia. Qed.
Lemma W_cons c b l : W ((c, b) :: l) = Z.of_nat (List.length b) + W l.
Proof. unfold W, garr. cbn. rewrite app_length. lia. Qed.
Lemma W_pos l : 0 <= W l. Proof. unfold W. lia. Qed.

Lemma tile_at l1 : forall i x b r,
  In (x, (i + W l1, i + W l1 + Z.of_nat (List.length b))) (combine (map fst (l1 ++ (x, b) :: r)) (tile i (widths (l1 ++ (x, b) :: r)))).
Proof.
  induction l1 as [|[c bc] l1 IH]; intros i x b r.
  - cbn. left. change (W []) with 0. f_equal. f_equal; lia.
  - cbn [List.app map widths tile combine fst snd]. right. rewrite W_cons.
    specialize (IH (i + Z.of_nat (List.length bc)) x b r). unfold widths in IH.
    replace (i + (Z.of_nat (List.length bc) + W l1)) with (i + Z.of_nat (List.length bc) + W l1) by lia. exact IH.
Qed.

Lemma entry_at g l1 x b r : In g gs -> g = (l1 ++ (x, b) :: r)%list -> entry x (gkey g, (W l1, W l1 + Z.of_nat (List.length b))).
Proof.
  intros Hg E. exists g. split; [exact Hg|]. unfold layout. apply in_map_iff. exists (x, (W l1, W l1 + Z.of_nat (List.length b))).
  split; [reflexivity|]. rewrite E. apply (tile_at l1 0).
Qed.

Lemma next_cond x y px py : entry x px -> entry y py -> fst (snd px) < snd (snd px) -> fst (snd py) < snd (snd py) ->
  (next_to gs x y <-> fst px = fst py /\ snd (snd px) = fst (snd py)).
Proof.
  intros Hx Hy Nx Ny. split.
  - intros (g & l1 & bx & mid & b2 & l2 & Hg & E & Hm).
    assert (Ex := entry_at g l1 x bx _ Hg E).
    assert (Ey := entry_at g (l1 ++ (x, bx) :: mid) y b2 l2 Hg). rewrite <- app_assoc in Ey. specialize (Ey E).
    rewrite (entry_fun gs item Hi _ _ _ Hx Ex), (entry_fun gs item Hi _ _ _ Hy Ey). cbn [fst snd]. split; [reflexivity|].
    rewrite W_app, W_cons. assert (W mid = 0); [|lia].
    clear -Hm. induction Hm as [|[c b] l H Hm IH]; [reflexivity|]. cbn in H. subst b. rewrite W_cons, IH. reflexivity.
  - intros (E1 & E2). destruct Hx as (g & Hg & Hx). destruct Hy as (g' & Hg' & Hy).
    assert (Hx' := Hx). assert (Hy' := Hy).
    apply layout_entry_inv in Hx as (bx & Ix & Kx & _ & _ & Lx & _). apply layout_entry_inv in Hy as (b2 & Iy & Ky & _ & _ & Ly & _).
    assert (g = g') by (apply (gkey_inj gs item Hi); congruence). subst g'.
    apply in_split in Ix as (l1 & r & Eg).
    assert (Ex : px = (gkey g, (W l1, W l1 + Z.of_nat (List.length bx)))).
    { apply (entry_fun gs item Hi x); [exists g; auto|]. now apply (entry_at g l1 x bx r). }
    assert (Fy : forall a c, g = (a ++ (y, b2) :: c)%list -> fst (snd py) = W a).
    { intros a c E. assert (py = (gkey g, (W a, W a + Z.of_nat (List.length b2)))) as ->; [|reflexivity].
      apply (entry_fun gs item Hi y); [exists g; auto|]. now apply (entry_at g a y b2 c). }
    rewrite Ex in *. cbn [fst snd] in *. rewrite Eg in Iy. apply in_app_iff in Iy as [Iy|[Iy|Iy]].
    + exfalso. apply in_split in Iy as (a & c & ->). rewrite <- app_assoc in Eg. cbn [List.app] in Eg. apply Fy in Eg.
      rewrite W_app, W_cons in E2. pose proof (W_pos c). pose proof (W_pos a). lia.
    + exfalso. injection Iy as <- <-. apply Fy in Eg. lia.
    + apply in_split in Iy as (mid & l2 & ->).
      assert (Es : g = ((l1 ++ (x, bx) :: mid) ++ (y, b2) :: l2)%list) by (rewrite Eg, <- app_assoc; reflexivity).
      apply Fy in Es. rewrite W_app, W_cons in Es. assert (W0 : W mid = 0) by lia.
      exists g, l1, bx, mid, b2, l2. split; [exact Hg|]. split; [exact Eg|].
      clear -W0. induction mid as [|[c b] mid IH]; [constructor|]. rewrite W_cons in W0. pose proof (W_pos mid).
      constructor; [|apply IH; lia]. cbn. destruct b; [reflexivity|]. cbn [List.length] in W0. lia.
Qed.

Definition joins (p q : piece) : bool := String.eqb (fst p) (fst q) && (snd (snd p) =? fst (snd q)).

Lemma runs_more p q k l : joins p q = true -> forall accum,
  merge_runs (Some p) accum (repeat q k ++ l) = merge_runs (Some p) (accum ++ repeat q k) l.
Proof.
  intros H. induction k as [|k IH]; intros accum; cbn [repeat List.app]; [now rewrite app_nil_r|].
  destruct p as [kp sp], q as [kq sq]. cbn [merge_runs]. unfold joins in H. cbn [fst snd] in H. rewrite H, IH. now rewrite <- app_assoc.
Qed.

Lemma runs_break p accum l : accum <> [] -> match l with [] => True | q :: _ => joins p q = false end ->
  merge_runs (Some p) accum l = accum :: merge_runs None [] l.
Proof.
  intros Ha H. destruct l as [|q l].
  - cbn. destruct accum; [congruence|reflexivity].
  - destruct p as [kp sp], q as [kq sq]. cbn [merge_runs]. unfold joins in H. cbn [fst snd] in H. rewrite H.
    destruct accum; [congruence|reflexivity].
Qed.

Lemma leading (y : string) l : exists k r, l = (repeat y k ++ r)%list /\ match r with [] => True | z :: _ => z <> y end.
Proof.
  induction l as [|z l (k & r & -> & H)]; [exists 0%nat, []; auto|]. destruct (string_dec z y) as [->|N].
  - exists (S k), r. auto.
  - exists 0%nat, (z :: repeat y k ++ r)%list. auto.
Qed.

Lemma entries_repeat y py k : forall l ps, entry y py -> Forall2 (fun c p => entry c p) (repeat y k ++ l) ps ->
  exists ps', ps = (repeat py k ++ ps')%list /\ Forall2 (fun c p => entry c p) l ps'.
Proof.
  induction k as [|k IH]; intros l ps Hy H; cbn [repeat List.app] in H; [exists ps; auto|].
  inversion H as [|? p ? ps1 H1 H2]; subst. destruct (IH l ps1 Hy H2) as (ps' & -> & H3). exists ps'.
  rewrite (entry_fun gs item Hi _ _ _ H1 Hy). auto.
Qed.

Lemma last_repeat {A} (a d : A) k : last (repeat a (S k)) d = a.
Proof. induction k as [|k IH]; [reflexivity|]. exact IH. Qed.

Definition wide (p : piece) : Prop := fst (snd p) < snd (snd p).

Lemma merge_kept n : forall codes ps, (List.length codes <= n)%nat -> Forall2 (fun c p => entry c p) codes ps ->
  Forall wide ps -> Forall fits ps ->
  exists codes' ps', kept gs codes codes' /\ Forall2 (fun c p => entry c p) codes' ps' /\
    List.concat (map pseg (map merged (merge_runs None [] ps))) = List.concat (map pseg ps') /\
    Forall fits (map merged (merge_runs None [] ps)).
Proof.
  induction n as [|n IH]; intros codes ps Hn He Hw Hf.
  { destruct codes; [|cbn in Hn; lia]. inversion He; subst. exists [], []. repeat split; constructor. }
  destruct codes as [|x rest]; [inversion He; subst; exists [], []; repeat split; constructor|].
  inversion He as [|? px ? prest Ex Er]; subst. inversion Hw as [|? ? Wx Wr]; subst. inversion Hf as [|? ? Fx Fr]; subst.
  assert (Est : merge_runs None [] (px :: prest) = merge_runs (Some px) [px] prest) by (destruct px; reflexivity).
  rewrite Est.
  assert (Halone : match rest with [] => True | y :: _ => ~ next_to gs x y end ->
    exists codes' ps', kept gs (x :: rest) codes' /\ Forall2 (fun c p => entry c p) codes' ps' /\
      List.concat (map pseg (map merged (merge_runs (Some px) [px] prest))) = List.concat (map pseg ps') /\
      Forall fits (map merged (merge_runs (Some px) [px] prest))).
  { intros Ha. destruct (IH rest prest) as (c' & p' & K1 & K2 & K3 & K4); [cbn in Hn; lia|assumption..|].
    exists (x :: c'), (px :: p'). split; [now constructor|]. split; [now constructor|].
    rewrite runs_break; [|discriminate|].
    - cbn [map List.concat]. rewrite K3. assert (E : merged [px] = px) by (destruct px as [k [a b]]; reflexivity).
      rewrite E. split; [reflexivity|]. now constructor.
    - inversion Er as [|y py ? ? Ey _]; subst; [exact I|]. inversion Wr as [|? ? Wy _]; subst.
      destruct (joins px py) eqn:J; [|reflexivity]. exfalso. apply Ha. apply (next_cond x y px py Ex Ey Wx Wy).
      unfold joins in J. apply andb_prop in J as [J1 J2]. apply String.eqb_eq in J1. split; [exact J1|lia]. }
  destruct rest as [|y rest2]; [now apply Halone|].
  inversion Er as [|? py ? prest2 Ey Er2]; subst. inversion Wr as [|? ? Wy Wr2]; subst.
  destruct (joins px py) eqn:J.
  - assert (Hxy : next_to gs x y).
    { apply (next_cond x y px py Ex Ey Wx Wy). unfold joins in J. apply andb_prop in J as [J1 J2]. apply String.eqb_eq in J1. split; [exact J1|lia]. }
    destruct (leading y (y :: rest2)) as (k & l & El & Hl). destruct k as [|k].
    { cbn in El. subst l. congruence. }
    rewrite El in *. destruct (entries_repeat y py (S k) l (py :: prest2) Ey Er) as (pl & Ep & Hpl). rewrite Ep in *.
    apply Forall_app in Wr as [_ Wl]. apply Forall_app in Fr as [Fy Fl].
    destruct (IH l pl) as (c' & p' & K1 & K2 & K3 & K4).
    { cbn [List.length] in Hn. rewrite app_length in Hn. cbn in Hn. lia. }
    1-3: assumption.
    exists (x :: y :: c'), (px :: py :: p'). split; [now constructor|]. split; [now constructor; [|constructor]|].
    rewrite runs_more by exact J. rewrite runs_break; [|discriminate|].
    + assert (E : merged ([px] ++ repeat py (S k)) = (fst px, (fst (snd px), snd (snd py)))).
      { cbn [List.app merged]. now rewrite last_repeat. }
      cbn [map]. rewrite E. cbn [List.concat map].
      unfold joins in J. apply andb_prop in J as [J1 J2]. apply String.eqb_eq in J1.
      assert (Fpy : fits py) by (inversion Fy; assumption).
      destruct (pseg_merge item px py Fx Fpy (eq_sym J1) ltac:(lia)) as [M1 M2].
      rewrite <- M1, K3. split; [now rewrite <- app_assoc|]. now constructor.
    + inversion Hpl as [|z pz ? ? Ez _]; subst; [exact I|]. inversion Wl as [|? ? Wz _]; subst.
      destruct (joins px pz) eqn:J'; [|reflexivity]. exfalso. apply Hl.
      unfold joins in J, J'. apply andb_prop in J as [J1 J2]. apply andb_prop in J' as [J3 J4]. apply String.eqb_eq in J1, J3.
      eapply (entry_starts gs item Hi z y pz py); eauto; [congruence|lia].
  - apply Halone. intros Hxy. apply (next_cond x y px py Ex Ey Wx Wy) in Hxy as (E1 & E2).
    unfold joins in J. rewrite E1, String.eqb_refl in J. cbn in J. lia.
Qed.

Lemma gather_kept codes ps : Forall2 (fun c p => entry c p) codes ps -> stored gs codes -> codes <> [] ->
  exists codes' bs', kept gs codes codes' /\ Forall2 (holds gs) codes' bs' /\ gather item (fused_pieces ps) = Ok (List.concat bs').
Proof.
  intros He Hs Hne.
  assert (Hfit : Forall fits ps).
  { clear Hs Hne. induction He as [|c p codes ps H He IH]; constructor; [|exact IH]. apply (entry_keys gs item Hi) in H as (b & _ & H0 & H1 & a & Ha & _ & H2).
    split; [lia|eauto]. }
  assert (Hw : Forall wide ps).
  { clear Hne Hfit. induction He as [|c p codes ps H He IH]; [constructor|]. inversion Hs as [|? ? (b & Hb & Nb) Hs']; subst. constructor; [|now apply IH].
    apply (entry_keys gs item Hi) in H as (b' & Hb' & _ & H1 & _). rewrite (holds_fun gs item Hi _ _ _ Hb' Hb) in H1. unfold wide.
    destruct b; [congruence|]. cbn in H1. lia. }
  destruct (merge_kept _ codes ps (le_n _) He Hw Hfit) as (c' & p' & K1 & K2 & K3 & K4).
  exists c', (map pseg p'). split; [exact K1|]. split.
  - clear -K2 Hi. induction K2 as [|c p cs ps H K IH]; cbn; constructor; [|exact IH].
    apply (entry_keys gs item Hi) in H as (b & Hb & _ & _ & a & Ha & Hsg & _). unfold EncodeProofs.pseg. now rewrite Ha, Hsg.
  - unfold fused_pieces. rewrite (gather_pieces item); [now rewrite K3|exact K4|].
    intros E. apply map_eq_nil in E. revert E. apply merge_runs_nonempty. right. inversion He; subst; congruence.
Qed.
End Exact.

(** encode with any result per stream *)
Lemma encode1_gen {X} (gs : list (@group X)) (item : list (string * list X)) (Hi : item_of gs item) (s : string) (R : list string -> list X -> Prop) :
  gs <> [] -> (forall codes, In codes (read_streams s) -> stored gs codes /\
    forall ps, Forall2 (fun c p => entry gs c p) codes ps -> exists r, gather item (fused_pieces ps) = Ok r /\ R codes r) ->
  exists out, encode1 (mkC s None) item = Ok out /\ NoDup (map fst out) /\
    (forall k, In k (map fst out) <-> In k (map (join "|") (read_streams s))) /\
    forall codes, In codes (read_streams s) -> exists r, R codes r /\ dict_get (join "|" codes) out = Some r.
Proof.
  intros Hne Hs. unfold encode1. destruct item as [|i0 item0] eqn:Ei.
  { pose proof Hi as (H & _). destruct gs; [congruence|discriminate]. }
  rewrite <- Ei in *. clear i0 item0 Ei.
  destruct (item_indices_ok gs item Hi (map fst (sort_keys item)) []) as (idx & H1 & H2 & _ & H4).
  { apply Forall_forall. intros k Hk. now apply (item_keys gs item Hi). }
  { discriminate. }
  rewrite H1. cbn [bind].
  assert (Hidx : forall c b, holds gs c b -> exists p, dict_index c idx = Ok p /\ entry gs c p).
  { intros c b Hc. unfold holds in Hc. apply in_concat in Hc as (g & Hg & Hc).
    assert (Hin : In c (map fst idx)).
    { apply (H4 g); [exact Hg|apply (item_keys gs item Hi); eauto|]. apply in_map_iff. exists (c, b). auto. }
    unfold dict_index. destruct (dict_get c idx) as [p|] eqn:E; [eauto|]. apply dict_get_None in E. contradiction. }
  change (cparse (mkC s None)) with (parse_text s).
  set (lookup := fun kv : string * fused => l <- mapR (fun p => dict_index p idx) (codes (snd kv));; Ok (fst kv, l)).
  assert (Hlook : forall codes, stored gs codes -> exists ps, mapR (fun p => dict_index p idx) codes = Ok ps /\ Forall2 (fun c p => entry gs c p) codes ps).
  { intros cs H. induction H as [|c cs (b & Hb & _) H (ps & E & F)]; [exists []; split; [reflexivity|constructor]|].
    destruct (Hidx _ _ Hb) as (p & Hp & He). exists (p :: ps). cbn. rewrite Hp, E. split; [reflexivity|now constructor]. }
  set (P := sort_keys (parse_text s)).
  assert (HP : forall kv, In kv P <-> In kv (parse_text s)).
  { intros kv. unfold P. split; apply Permutation_in; [|symmetry]; apply sort_keys_perm. }
  assert (HPnd : NoDup (map fst P)).
  { eapply Permutation_NoDup; [|apply (parse_text_NoDup s)]. apply Permutation_map. symmetry. apply sort_keys_perm. }
  set (out1 := fun kv : string * list piece => a <- gather item (fused_pieces (snd kv));; Ok (fst kv, a)).
  assert (Hboth : forall kv, In kv P -> exists kl r, lookup kv = Ok kl /\ out1 kl = Ok (fst kv, r) /\ R (codes (snd kv)) r).
  { intros [k f] H. apply HP in H. apply parse_stream in H as (H & _ & _). destruct (Hs _ H) as (S1 & S2).
    destruct (Hlook _ S1) as (ps & E & F). destruct (S2 _ F) as (r & G & HR). exists (k, ps), r.
    unfold lookup, out1. cbn [snd fst]. rewrite E. cbn [bind snd fst]. rewrite G. auto. }
  assert (Hall : exists fi out, mapR lookup P = Ok fi /\ mapR out1 fi = Ok out /\ Forall2 (fun kv o => fst o = fst kv /\ R (codes (snd kv)) (snd o)) P out).
  { clear -Hboth. induction P as [|kv P IH]; [exists [], []; repeat split; constructor|].
    destruct IH as (fi & out & A & B & C); [intros; apply Hboth; now right|].
    destruct (Hboth kv (or_introl eq_refl)) as (kl & r & D & E & F). exists (kl :: fi), ((fst kv, r) :: out).
    cbn [mapR]. rewrite A, B, D, E. repeat split. now constructor. }
  destruct Hall as (fi & out & Hfi & Hout & HF). rewrite Hfi. cbn [bind]. exists out. split; [exact Hout|].
  assert (Hk : map fst out = map fst P).
  { clear -HF. induction HF as [|kv o P out (H & _) F IH]; cbn; [reflexivity|]. now rewrite H, IH. }
  rewrite Hk. split; [exact HPnd|]. split.
  - intros k. rewrite !in_map_iff. split.
    + intros ([k' f] & E & H). cbn in E. subst k'. apply HP in H. apply parse_stream in H as (H & -> & _). eauto.
    + intros (l & <- & H). apply stream_parse in H. exists (join "|" l, mkF l false). split; [reflexivity|]. now apply HP.
  - intros cs Hcs. apply stream_parse in Hcs. apply HP in Hcs.
    assert (G : exists r, R cs r /\ In (join "|" cs, r) out).
    { clear -HF Hcs. induction HF as [|kv o P out (E & H) F IH]; [destruct Hcs|]. destruct Hcs as [->|Hcs].
      - destruct o as [k r]. cbn [fst snd] in *. subst k. exists r. split; [exact H|now left].
      - destruct (IH Hcs) as (r & A & B). exists r. split; [exact A|now right]. }
    destruct G as (r & A & B). exists r. split; [exact A|]. apply dict_of_pairs; [now rewrite Hk|exact B].
Qed.

Lemma stream_nonempty s codes : In codes (read_streams s) -> codes <> [].
Proof. intros H. apply stream_parse in H. apply parse_stream in H as (_ & _ & H). exact H. Qed.

(* C16, exactly: with streams of stored, non-empty components, the default mode
   never raises, gives every stream once, and the entry of a stream holds the
   data of the components that are kept.  A stream without repetitions is kept
   whole; which components are kept depends on the item and the stream only. *)
Theorem C16_exact {X} (gs : list (@group X)) (item : list (string * list X)) (s : string) :
  item_of gs item -> gs <> [] ->
  (forall codes, In codes (read_streams s) -> Forall (fun c => exists b, holds gs c b /\ b <> []) codes) ->
  exists out, encode1 (mkC s None) item = Ok out /\
    NoDup (map fst out) /\
    (forall k, In k (map fst out) <-> In k (map (join "|") (read_streams s))) /\
    (forall codes, In codes (read_streams s) -> exists codes', kept gs codes codes' /\
       forall bs', Forall2 (holds gs) codes' bs' -> dict_get (join "|" codes) out = Some (List.concat bs')).
Proof.
  intros H1 H2 H3.
  destruct (encode1_gen gs item H1 s (fun codes r => exists codes' bs', kept gs codes codes' /\ Forall2 (holds gs) codes' bs' /\ r = List.concat bs') H2)
    as (out & Ho & Hn & Hk & Hr).
  { intros codes Hc. split; [now apply H3|]. intros ps F.
    destruct (gather_kept gs item H1 codes ps F (H3 _ Hc) (stream_nonempty _ _ Hc)) as (c' & b' & A & B & C).
    exists (List.concat b'). split; [exact C|]. eauto. }
  exists out. split; [exact Ho|]. split; [exact Hn|]. split; [exact Hk|]. intros codes Hc.
  destruct (Hr codes Hc) as (r & (c' & b' & A & B & ->) & D). exists c'. split; [exact A|]. intros bs' F. rewrite D. do 2 f_equal.
  clear -B F H1. revert bs' F. induction B as [|c b cs bs H B IH]; intros bs' F; inversion F as [|? b2 ? bs2 G F2]; subst; [reflexivity|].
  f_equal; [exact (holds_fun gs item H1 c b b2 H G)|now apply IH].
Qed.
Print Assumptions C16_exact.

Theorem C16_kept_once {X} (gs : list (@group X)) l a b : kept gs l a -> kept gs l b -> a = b.
Proof. intros H. now apply kept_fun. Qed.
Print Assumptions C16_kept_once.

(* nothing is dropped unless the stream names a component twice in a row, so
   every such stream is encoded correctly *)
Theorem C16_kept_whole {X} (gs : list (@group X)) l a :
  kept gs l a -> (forall l1 y l2, l <> (l1 ++ y :: y :: l2)%list) -> a = l.
Proof.
  induction 1 as [|x l l' Hx Hl IH|x y k l l' Hxy Hy Hl IH]; intros Hd; [reflexivity| |].
  - f_equal. apply IH. intros l1 y l2 ->. exact (Hd (x :: l1) y l2 eq_refl).
  - destruct k as [|k].
    + cbn [repeat List.app] in *. do 2 f_equal. apply IH. intros l1 z l2 ->. exact (Hd (x :: y :: l1) z l2 eq_refl).
    + exfalso. exact (Hd [x] y (repeat y k ++ l)%list eq_refl).
Qed.
Print Assumptions C16_kept_whole.

(* B1 and flow.0:3 stand next to each other in ex_item: the second flow.0:3 is
   dropped after B1 and kept elsewhere *)
Example C16_exact_example :
  encode1 (mkC "B1|flow.0:3|flow.0:3,x|flow.0:3|flow.0:3,B1|B1" None) ex_item
  = Ok [("B1|B1", ["b1"; "b1"]); ("B1|flow.0:3|flow.0:3", ["b1"; "f0"; "f1"; "f2"]);
        ("x|flow.0:3|flow.0:3", ["x"; "f0"; "f1"; "f2"; "f0"; "f1"; "f2"])]%string.
Proof. vm_compute. reflexivity. Qed.

Example C16_exact_kept : kept ex_groups ["B1"; "flow.0:3"; "flow.0:3"]%string ["B1"; "flow.0:3"]%string.
Proof.
  apply (kept_run ex_groups "B1" "flow.0:3" 1 [] []); [|exact I|constructor].
  exists [("B1", ["b1"]); ("flow.0:3", ["f0"; "f1"; "f2"])]%string, [], ["b1"%string], [], ["f0"; "f1"; "f2"]%string, [].
  split; [now left|]. split; [reflexivity|constructor].
Qed.
