(* What finalize() reads from files after optimize(): only samples that are shown. *)
From Verif Require Import Py PyProofs GeomModel GeomProofs LazyModel LazySpec LazyProofs.
From Verif Require Import GraphModel GraphSpec GraphBase GraphSize GraphMain GraphSound GraphTotal FinalModel FinalSpec FinalProofs LoadModel LoadSpec LoadProofs.
From Coq Require Import ZifyBool.
Local Open Scope Z_scope.

(** ** A coordinate shows one sample *)

Definition samp_eq (s1 s2 : GraphSpec.sample) : Prop :=
  match s1, s2 with
  | NaN d1, NaN d2 => d1 = d2
  | Samp i1 b1 x1 y1 d1, Samp i2 b2 x2 y2 d2 => i1 = i2 /\ b1 = b2 /\ (x1 == x2)%Q /\ (y1 == y2)%Q /\ d1 = d2
  | _, _ => False
  end.

Lemma samp_eq_dq q s1 s2 : samp_eq s1 s2 -> samp_eq (apply_dq q s1) (apply_dq q s2).
Proof. destruct q, s1, s2; cbn; intros H; try contradiction; intuition congruence. Qed.

Lemma owner_det (P Q : node -> Z -> Prop) (S : Prop) ps : Forall (fun p => forall c, P p c -> Q p c -> S) ps ->
  forall c, owner P ps c -> owner Q ps c -> S.
Proof.
  induction 1 as [|p ps Hp F IH]; intros c H1 H2; cbn in *; [contradiction|].
  destruct (num_channels p) as [n|]; [|contradiction]. destruct (c <? n); eauto.
Qed.

Lemma vis_det t : exact t -> forall x y x' y' c s1 s2, (x == x')%Q -> (y == y')%Q ->
  vis t x y c s1 -> vis t x' y' c s2 -> samp_eq s1 s2.
Proof.
  induction t as [l|ps d IH|s ys xs ci d nm nc IH|s M d al IH|s q d IH|s i d IH] using node_ind';
    intros He x y x' y' c s1 s2 Ex Ey H1 H2; try contradiction; cbn [vis] in *.
  - destruct H1 as (_ & _ & H1), H2 as (_ & _ & H2). destruct (l_kind l).
    + destruct H1 as (u & v & Hu & Hv & ->), H2 as (u' & v' & Hu' & Hv' & ->). cbn. repeat split.
      * now rewrite Hu, Hu', Ex.
      * now rewrite Hv, Hv', Ey.
    + subst. reflexivity.
  - cbn in He. rewrite forall_parts_Forall in He. destruct H1 as (_ & H1), H2 as (_ & H2).
    eapply owner_det; [|exact H1|exact H2]. rewrite Forall_forall in *. intros p Hp k G1 G2. exact (IH p Hp (He p Hp) _ _ _ _ _ _ _ Ex Ey G1 G2).
  - destruct H1 as (_ & b & S1 & H1), H2 as (_ & b' & S2 & H2).
    assert (b = b'). { destruct ci as [l|]; cbn in S1, S2; [destruct S1, S2|]; congruence. } subst b'.
    eapply (IH He); [| |exact H1|exact H2]; [now rewrite Ex|now rewrite Ey].
  - destruct H1 as (_ & u & H1 & ->), H2 as (_ & u' & H2 & ->). apply samp_eq_dq. exact (IH He _ _ _ _ _ _ _ Ex Ey H1 H2).
Qed.

Section Reads.
Context {V : Type} (E : env V).

Definition shows_read (t : node) (r : read) : Prop :=
  forall id lvl y x b, reads_sample r id lvl y x b ->
    lvl = 0 /\ exists rr cc k X Y dq w h n,
      dsize t = Some (w, h) /\ num_channels t = Some n /\ 0 <= rr < h /\ 0 <= cc < w /\ 0 <= k < n /\
      (X == centre x)%Q /\ (Y == centre y)%Q /\ vis t (centre cc) (centre rr) k (Samp id b X Y dq).

Definition small (t : node) (rs : list read) : Prop :=
  Forall (shows_read t) rs /\
  exists w h n, dsize t = Some (w, h) /\ num_channels t = Some n /\ 0 <= n /\ 0 < w /\ 0 < h /\ total rs <= w * h * n.

Definition positive (t : node) : Prop := exists w h, dsize t = Some (w, h) /\ 0 < w /\ 0 < h.

Lemma total_app rs rs' : total (rs ++ rs') = total rs + total rs'.
Proof.
  unfold total. induction rs as [|r rs IH]; cbn [fold_right map app]; [reflexivity|]. rewrite IH. lia.
Qed.

Lemma fin_nil t w h n : dsize t = Some (w, h) -> num_channels t = Some n -> 0 <= n -> 0 < w -> 0 < h -> small t [].
Proof. intros. split; [constructor|]. exists w, h, n. repeat split; auto. cbn. nia. Qed.

Lemma lfinalize_leaf_reads l a rs : leaf_ok l -> files_ok E (Leaf l) -> positive (Leaf l) ->
  lfinalize E (Leaf l) = Ok (a, rs) -> small (Leaf l) rs.
Proof.
  intros ((n & Enc & Hn0 & _) & _) Hf (w & h & Ed & Pw & Ph) H. cbn in Hf, Ed. injection Ed as Ed.
  assert (Ed' : dsize (Leaf l) = Some (w, h)) by (cbn; now rewrite Ed).
  unfold lfinalize in H. cbn [lfin] in H. 
  destruct (l_kind l) eqn:Ek.
  - unfold describes in Hf. destruct (e_disk E (l_id l)) as [[f m]|] eqn:Edk.
    + destruct Hf as (D1 & D2 & D3). cbn [bind] in H.
      destruct (fetch_full E (l_id l) (open f m None) (file_ready E f m D3)) as (a' & Ha & _).
      unfold force in H. rewrite Ha in H. cbn [bind] in H. injection H as <- <-. cbn [app l_overview l_file open].
      rewrite Ed in D1. injection D1 as -> ->. assert (n = g_c f) by congruence. subst n.
      split.
      * constructor; [|constructor]. intros id lvl y x b (R1 & R2 & R3 & R4 & R5). cbn in R1, R2, R3, R4, R5. apply span_In in R5.
        split; [congruence|]. exists y, x, b, (centre x), (centre y), [], (g_w f 0), (g_h f 0), (g_c f).
        cbn [num_channels]. repeat (split; [first [exact Ed'|exact D2|lia|reflexivity]|]).
        cbn [vis]. split; [apply centre_inside; rewrite Ed; cbn; lia|]. split; [exists (g_c f); split; [exact D2|lia]|]. rewrite Ek.
        exists (centre x), (centre y). repeat split; try reflexivity. now subst id.
      * exists (g_w f 0), (g_h f 0), (g_c f). cbn [num_channels]. repeat (split; [first [exact Ed'|exact D2|lia]|]).
        unfold total, read_size. cbn [fold_right rd_h rd_w rd_bands]. rewrite span_length, Z2Nat.id by lia. nia.
    + destruct (finalize_leaf (e_world E) l) as [a'|]; [|discriminate]. cbn in H. injection H as <- <-. eapply fin_nil; eauto.
  - destruct (finalize_leaf (e_world E) l) as [a'|]; [|discriminate]. cbn in H. injection H as <- <-. eapply fin_nil; eauto.
Qed.

Lemma nth_error_In_pos (l : list Z) b : In b l -> exists k, 0 <= k < Z.of_nat (List.length l) /\ nth_error l (Z.to_nat k) = Some b.
Proof.
  intros H. apply In_nth_error in H as (k & H). exists (Z.of_nat k). rewrite Nat2Z.id. split; [|exact H].
  assert (k < List.length l)%nat by (apply nth_error_Some; congruence). lia.
Qed.

Lemma lfinalize_crop_reads l ys xs ci d nm nc a rs : let t := Crop (Leaf l) ys xs ci d nm nc in
  wf t -> tight t -> files_ok E t -> positive t -> lfinalize E t = Ok (a, rs) -> small t rs.
Proof.
  intros t Hw Ht Hf (w & h & Ed & Pw & Ph) H. unfold t in *. 
  pose proof Hw as (((n & Enc & Hn0 & _) & _) & _ & _ & -> & Hci). pose proof Ht as (_ & Hnci & _ & w0 & h0 & Hd0 & B1 & B2 & B3 & B4).
  cbn in Ed. injection Ed as <- <-. cbn [dsize] in Hd0. injection Hd0 as Hd0.
  assert (Hnc : exists m, num_channels (Crop (Leaf l) ys xs ci (iv_len xs, iv_len ys) nm nc) = Some m /\ 0 <= m /\
            m = match ci with Some li => Z.of_nat (List.length li) | None => n end).
  { cbn [num_channels]. destruct ci as [li|]; [destruct Hci as (-> & _)|destruct Hci as (_ & ->)]; eexists; repeat split; try exact Enc; lia. }
  destruct Hnc as (m0 & Em & Hm0 & Hm0').
  assert (Ed' : dsize (Crop (Leaf l) ys xs ci (iv_len xs, iv_len ys) nm nc) = Some (iv_len xs, iv_len ys)) by reflexivity.
  unfold lfinalize in H. cbn [lfin] in H. cbn in Hf.
  assert (Hmem : forall b, finalize_leaf (e_world E) l = Ok b ->
     ('(f, rs) <- (a0 <- index_array b ys xs ci;; Ok (Dense (atleast3 a0), []));; '(a, rs') <- force E f;; Ok (a, (rs ++ rs')%list)) = Ok (a, rs) -> rs = []).
  { intros b _ G. destruct (index_array b ys xs ci); [|discriminate]. cbn in G. now injection G. }
  destruct (l_kind l) eqn:Ek.
  - unfold describes in Hf. destruct (e_disk E (l_id l)) as [[f m]|] eqn:Edk.
    + destruct Hf as (D1 & D2 & D3). cbn [bind] in H. rewrite Hd0 in D1. injection D1 as -> ->.
      assert (n = g_c f) by congruence. subst n. unfold iv_len in Pw, Ph.
      destruct (fetch_crop E (l_id l) (open f m None) ys xs ci (file_ready E f m D3)) as (a' & x & Ha & _); cbn [l_file l_overview open]; try lia.
      { destruct ci as [li|]; [|exact I]. split; [congruence|]. destruct Hci as (_ & Hl & _). apply Hl. exact Enc. }
      rewrite Ha in H. cbn [bind force app] in H. injection H as <- <-. cbn [l_overview l_file open].
      split.
      * constructor; [|constructor]. intros id lvl y x' b (R1 & R2 & R3 & R4 & R5). cbn in R1, R2, R3, R4, R5. unfold iv_len in R3, R4.
        split; [congruence|].
        assert (Hk : exists k, 0 <= k < m0 /\ GraphSpec.selects ci k b /\ 0 <= b < g_c f).
        { destruct ci as [li|]; cbn in R5.
          - destruct (nth_error_In_pos li b R5) as (k & K1 & K2). exists k. split; [lia|]. split; [cbn; split; [lia|exact K2]|].
            destruct Hci as (_ & Hl & _). specialize (Hl _ Enc). rewrite Forall_forall in Hl. now apply Hl.
          - apply span_In in R5. exists b. split; [lia|]. split; [reflexivity|lia]. }
        destruct Hk as (k & K1 & K2 & K3).
        exists (y - fst ys), (x' - fst xs), k, (centre x'), (centre y), [], (iv_len xs), (iv_len ys), m0.
        repeat (split; [first [exact Ed'|exact Em|unfold iv_len; lia|reflexivity]|]).
        cbn [vis]. split; [apply centre_inside; cbn; unfold iv_len; lia|]. exists b. split; [exact K2|].
        cbn [vis]. rewrite Ek.
        assert (X : (centre (x' - fst xs) + inject_Z (fst xs) == centre x')%Q) by (rewrite centre_add; now replace (x' - fst xs + fst xs) with x' by lia).
        assert (Y : (centre (y - fst ys) + inject_Z (fst ys) == centre y)%Q) by (rewrite centre_add; now replace (y - fst ys + fst ys) with y by lia).
        split; [|split; [exists (g_c f); split; [exact D2|exact K3]|]].
        -- pose proof (centre_inside (l_dsize l) y x') as G. rewrite Hd0 in G |- *. cbn [fst snd] in G. specialize (G ltac:(lia) ltac:(lia)).
           unfold inside in *. rewrite X, Y. exact G.
        -- exists (centre x'), (centre y). split; [now rewrite X|]. split; [now rewrite Y|]. now subst id.
      * exists (iv_len xs), (iv_len ys), m0. repeat (split; [first [exact Ed'|exact Em|unfold iv_len; lia]|]).
        unfold total, read_size. cbn [fold_right rd_h rd_w rd_bands].
        assert (Lb : Z.of_nat (List.length (bands_of f ci)) = m0). { rewrite Hm0'. destruct ci; cbn [bands_of]; [reflexivity|]. rewrite span_length. lia. }
        rewrite Lb. unfold iv_len. nia.
    + destruct (finalize_leaf (e_world E) l) as [b|] eqn:Eb; [|discriminate]. cbn [bind] in H.
      assert (rs = []). { apply (Hmem b eq_refl). destruct (index_array b ys xs ci); [|discriminate]. exact H. }
      subst rs. eapply fin_nil; eauto.
  - destruct (finalize_leaf (e_world E) l) as [b|] eqn:Eb; [|discriminate]. cbn [bind] in H.
    assert (rs = []). { apply (Hmem b eq_refl). destruct (index_array b ys xs ci); [|discriminate]. exact H. }
    subst rs. eapply fin_nil; eauto.
Qed.

Lemma small_dequant s q d rs : d = dsize s -> small s rs -> small (Dequant s q d) rs.
Proof.
  intros -> (F & w & h & n & Hd & Hn & R). split.
  - eapply Forall_impl; [|exact F]. intros r Hr id lvl y x b Hs. destruct (Hr id lvl y x b Hs) as (L & rr & cc & k & X & Y & dq & w' & h' & n' & G).
    split; [exact L|]. destruct G as (G1 & G2 & G3 & G4 & G5 & G6 & G7 & G8).
    exists rr, cc, k, X, Y, (match q with Some i => i :: dq | None => dq end), w', h', n'.
    cbn [dsize num_channels]. rewrite G1. repeat (split; [assumption || reflexivity|]). cbn [vis].
    split; [now apply centre_inside|]. eexists. split; [exact G8|]. now destruct q.
  - exists w, h, n. cbn [dsize num_channels]. rewrite Hd. repeat split; try apply R. exact Hn.
Qed.

Lemma lfinalize_dequant s q d a rs : lfinalize E (Dequant s q d) = Ok (a, rs) -> exists a', lfinalize E s = Ok (a', rs).
Proof.
  unfold lfinalize. cbn [lfin]. destruct (lfin E s) as [[f rs1]|]; [|discriminate]. cbn [bind].
  destruct (force E f) as [[a1 rs2]|]; [|discriminate]. cbn. rewrite app_nil_r. intros H. injection H as _ <-. eauto.
Qed.

Lemma lfinalize_concat ps d a rs : lfinalize E (Concat ps d) = Ok (a, rs) ->
  exists l, Forall2 (fun p ar => lfinalize E p = Ok ar) ps l /\ rs = List.concat (map snd l).
Proof.
  unfold lfinalize at 1. cbn [lfin]. destruct (mapR (fun x => x) (map (lfin E) ps)) as [fs|] eqn:Efs; [|discriminate]. cbn [bind].
  apply mapR_id_inv in Efs. 
  destruct (Nat.eq_dec (List.length fs) 1) as [L|L].
  - destruct fs as [|[f rs0] [|]]; try discriminate. inversion Efs as [|p ? ps' ? Hp Hps]; subst. inversion Hps; subst. cbn [bind].
    destruct (force E f) as [[a1 rs2]|] eqn:Ef; [|discriminate]. cbn [bind]. intros H. injection H as <- <-.
    exists [(a1, (rs0 ++ rs2)%list)]. split; [|cbn; now rewrite app_nil_r]. constructor; [|constructor]. unfold lfinalize. rewrite Hp. cbn [bind]. now rewrite Ef.
  - intros H.
    assert (G : ('(f, rs0) <- ('(l, rs1) <- force_all E fs;; a0 <- stack_bands l;; Ok (Dense (unmask_array a0), rs1));;
                '(a0, rs') <- force E f;; Ok (a0, (rs0 ++ rs')%list)) = Ok (a, rs)).
    { destruct fs as [|? [|? ?]]; [exact H|cbn in L; congruence|exact H]. }
    clear H. unfold force_all in G.
    destruct (mapR (fun '(f, rs) => '(a, rs') <- force E f;; Ok (a, (rs ++ rs')%list)) fs) as [l|] eqn:El; [|discriminate].
    cbn [bind] in G. destruct (stack_bands (map fst l)); [|discriminate]. cbn in G. rewrite app_nil_r in G. injection G as _ <-.
    exists l. split; [|reflexivity]. clear L. revert l El. induction Efs as [|p [f rs0] ps fs Hp F IH]; intros l El; cbn in El.
    + injection El as <-. constructor.
    + destruct (force E f) as [[a1 rs2]|] eqn:Ef; [|discriminate]. cbn [bind] in El.
      destruct (mapR _ fs) as [l'|] eqn:El'; [|discriminate]. cbn in El. injection El as <-.
      constructor; [|auto]. unfold lfinalize. rewrite Hp. cbn [bind]. now rewrite Ef.
Qed.

(* band k of part p is some band of the concatenation *)
Lemma owner_offset (P : node -> Z -> Prop) ps p k n : In p ps -> num_channels p = Some n -> 0 <= k < n ->
  Forall (fun q => exists m, num_channels q = Some m /\ 0 <= m) ps -> (forall q, q = p -> P q k) ->
  exists c m, sum_opt (map num_channels ps) = Some m /\ 0 <= c < m /\ owner P ps c.
Proof.
  intros Hin Hn Hk F HP. induction F as [|q ps (m & Hm & Hm0) F IH]; [contradiction|].
  assert (Hs : exists m', sum_opt (map num_channels ps) = Some m' /\ 0 <= m').
  { clear -F. induction F as [|q ps (m & Hm & Hm0) F IH]; [exists 0; split; [reflexivity|lia]|]. destruct IH as (m' & E' & H').
    cbn. rewrite Hm, E'. eexists. split; [reflexivity|lia]. }
  destruct Hs as (m' & Es & Hs0). cbn [map sum_opt owner]. rewrite Hm, Es.
  destruct Hin as [->|Hin].
  - exists k, (m + m'). assert (m = n) by congruence. split; [reflexivity|]. split; [lia|]. destruct (Z.ltb_spec k m); [auto|lia].
  - destruct (IH Hin) as (c & m1 & E1 & Hc & Ho). assert (m1 = m') by congruence. subst m1.
    exists (m + c), (m + m'). split; [reflexivity|]. split; [lia|]. destruct (Z.ltb_spec (m + c) m); [lia|]. now replace (m + c - m) with c by lia.
Qed.

Lemma small_concat ps w h l : Forall (fun p => dsize p = Some (w, h)) ps -> ps <> [] ->
  Forall2 small ps l -> small (Concat ps (Some (w, h))) (List.concat l).
Proof.
  intros Fd Hne F.
  assert (Fn : Forall (fun q => exists m, num_channels q = Some m /\ 0 <= m) ps).
  { clear -F. induction F as [|p rs ps l (_ & w & h & n & _ & Hn & Hn0 & _) F IH]; constructor; eauto. }
  assert (Pos : 0 < w /\ 0 < h).
  { destruct F as [|p rs ps l (_ & w' & h' & n & Hd & _ & _ & H1 & H2 & _) F]; [congruence|]. inversion Fd; subst. rewrite H3 in Hd. injection Hd as <- <-. auto. }
  split.
  - apply Forall_forall. intros r Hr. apply in_concat in Hr as (rs & Hrs & Hr).
    assert (Hp : exists p, In p ps /\ small p rs).
    { clear -F Hrs. induction F as [|p rs' ps l Hp F IH]; [contradiction|]. destruct Hrs as [->|Hrs]; [exists p; split; [now left|exact Hp]|].
      destruct (IH Hrs) as (p' & H1 & H2). exists p'. split; [now right|exact H2]. }
    destruct Hp as (p & Hin & (Fp & _)). rewrite Forall_forall in Fp. specialize (Fp r Hr).
    intros id lvl y x b Hs. destruct (Fp id lvl y x b Hs) as (L & rr & cc & k & X & Y & dq & w' & h' & n' & G1 & G2 & G3 & G4 & G5 & G6 & G7 & G8).
    split; [exact L|]. assert (Hdp : dsize p = Some (w, h)) by (rewrite Forall_forall in Fd; now apply Fd).
    rewrite Hdp in G1. injection G1 as <- <-.
    destruct (owner_offset (fun q c' => vis q (centre cc) (centre rr) c' (Samp id b X Y dq)) ps p k n' Hin G2 G5 Fn) as (c & m & Em & Hc & Ho).
    { intros q ->. exact G8. }
    exists rr, cc, c, X, Y, dq, w, h, m. cbn [dsize num_channels]. repeat (split; [assumption || reflexivity|]). cbn [vis].
    split; [now apply centre_inside|exact Ho].
  - assert (Hs : exists m, sum_opt (map num_channels ps) = Some m /\ 0 <= m /\ total (List.concat l) <= w * h * m).
    { clear Hne. induction F as [|p rs ps l (_ & w' & h' & n & Hd & Hn & Hn0 & _ & _ & Hle) F IH]; [exists 0; cbn; repeat split; lia|].
      inversion Fd as [|? ? E1 Fd']; subst. inversion Fn as [|? ? E2 Fn']; subst. destruct (IH Fd' Fn') as (m & Em & Hm0 & Hm). rewrite E1 in Hd. injection Hd as <- <-.
      cbn [map sum_opt List.concat]. rewrite Hn, Em. exists (n + m). split; [reflexivity|]. split; [lia|]. rewrite total_app. nia. }
    destruct Hs as (m & Em & Hm0 & Hm). exists w, h, m. cbn [dsize num_channels]. repeat split; auto; lia.
Qed.

Lemma canon_reads k : forall t a rs, canon k t -> wf t -> tight t -> files_ok E t -> positive t ->
  lfinalize E t = Ok (a, rs) -> small t rs.
Proof.
  induction k as [|k IH]; intros t a rs Hk Hw Ht Hf Hp H; apply canon_cases in Hk as [Hk|(k' & ps & d & Ek & -> & Hk)]; try discriminate.
  1, 2: assert (CL : forall s a rs, cropped_leaf s -> wf s -> tight s -> files_ok E s -> positive s -> lfinalize E s = Ok (a, rs) -> small s rs)
    by (clear; intros s a rs Hc Hw Ht Hf Hp H; destruct s as [l|ps d|s ys xs ci d nm nc|s M d al|s q d|s i d]; try contradiction;
        [eapply lfinalize_leaf_reads; eassumption|destruct s; try contradiction; eapply lfinalize_crop_reads; eassumption]);
    (assert (Hdq : (exists s q d, t = Dequant s q d /\ cropped_leaf s) \/ cropped_leaf t)
       by (destruct t; cbn [atom] in Hk; eauto 6);
     destruct Hdq as [(s & q & d & -> & Hc)|Hc]; [|eapply CL; eassumption];
     destruct Ht as (Hts & Ed); destruct (lfinalize_dequant _ _ _ _ _ H) as (a' & H');
     apply small_dequant; [exact Ed|]; eapply CL; try eassumption;
     destruct Hp as (w & h & Hd & Pw & Ph); exists w, h; split; [|auto]; cbn [dsize] in Hd; destruct d; congruence).
  injection Ek as <-. destruct Hp as (w & h & Hd & Pw & Ph). cbn in Hd. subst d.
  apply wf_concat in Hw as (Fw & _ & _). apply tight_concat in Ht as (Hne & Ft & Fd).
  unfold files_ok in Hf. rewrite leafs_concat in Hf.
  destruct (lfinalize_concat _ _ _ _ H) as (l & Fl & ->).
  apply small_concat; [exact Fd|exact Hne|].
  clear Hne H. induction Fl as [|p [a' rs'] ps l Hp Fl IHl]; [constructor|].
  rewrite Forall_cons_iff in *. cbn [map snd]. constructor; [|apply IHl; tauto].
  eapply (IH p a' rs'); try tauto. exists w, h. split; [apply Fd|auto].
Qed.

Lemma shows_back o t t' rs : built t -> optimizes o t t' -> small t' rs -> small t rs.
Proof.
  intros Hb Ho (F & w & h & n & Hd & Hn & R). destruct (built_ok _ Hb) as (Hw & Ht & He).
  destruct (optimize_metadata o t t' (proj1 Hb) (exact_ov_free _ He) Ho) as (Ed & En & _).
  split; [|exists w, h, n; rewrite <- Ed, <- En; auto].
  eapply Forall_impl; [|exact F]. intros r Hr id lvl y x b Hs.
  destruct (Hr id lvl y x b Hs) as (L & rr & cc & k & X & Y & dq & w' & h' & n' & G1 & G2 & G3 & G4 & G5 & G6 & G7 & G8).
  split; [exact L|]. rewrite Ed in G1. rewrite En in G2.
  destruct (exact_vis t Hw Ht He w' h' n' rr cc k G1 G2 G3 G4 G5) as (s & Hv).
  assert (He' : exact t').
  { destruct Ho as (f & b' & Ho). apply (keeps_exact t t'); [|exact He]. apply (optimize_kept o f t t' b' Hw (exact_ov_free _ He) Ht Ho). }
  assert (Hv' := optimize_samples o t t' (proj1 Hb) (or_intror (exact_ov_free _ He)) Ho _ _ _ _ Hv).
  pose proof (vis_det t' He' _ _ _ _ _ _ _ (Qeq_refl _) (Qeq_refl _) G8 Hv') as S.
  destruct s as [dq'|id' b' X' Y' dq']; [contradiction|]. destruct S as (<- & <- & S1 & S2 & <-).
  exists rr, cc, k, X', Y', dq, w', h', n'. repeat (split; [assumption|]). split; [now rewrite <- S1|]. split; [now rewrite <- S2|exact Hv].
Qed.

Lemma optimized_reads o t t' a rs : built t -> names t <> None -> dq_once t -> optimizes o t t' -> files_ok E t -> positive t ->
  lfinalize E t' = Ok (a, rs) -> small t rs.
Proof.
  intros Hb Hn Hq Ho Hf Hp H. destruct (built_ok _ Hb) as (Hw & Ht & He).
  eapply shows_back; [exact Hb|exact Ho|].
  destruct (optimize_total o t (built_nice _ Hb Hn) Hq) as (n & k & G & Hk & _).
  assert (t' = n) by (eapply optimizes_det; [exact Ho|exact G]). subst n.
  destruct (nice_opts o t t' (built_nice t Hb Hn) G) as ((Hw' & Ht' & _) & Ed & _).
  destruct Ho as (f & b & Ho). pose proof (optimize_kept o f t t' b Hw (exact_ov_free _ He) Ht Ho) as (_ & _ & _ & Hl).
  eapply canon_reads; try eassumption; [now apply Hl|]. unfold positive. now rewrite Ed.
Qed.

(** ** After optimize() nothing is empty *)

Lemma canon_nonempty k : forall t, canon k t -> wf t -> tight t -> positive t -> nonempty t /\ no_overviews t.
Proof.
  assert (CL : forall s, cropped_leaf s -> tight s -> positive s -> nonempty s /\ no_overviews s).
  { intros s Hc Ht Hp. destruct s as [l|ps d|s ys xs ci d nm nc|s M d al|s q d|s i d]; try contradiction.
    - split; [split; [exact Hp|exact I]|exact I].
    - destruct s as [l| | | | |]; try contradiction. split; [|exact I]. split; [exact Hp|]. split; [|exact I].
      destruct Ht as (_ & _ & -> & w0 & h0 & Hd0 & B1 & B2 & B3 & B4). destruct Hp as (w & h & Hd & Pw & Ph). cbn [dsize] in Hd. injection Hd as <- <-.
      exists w0, h0. unfold iv_len in *. split; [exact Hd0|lia]. }
  induction k as [|k IH]; intros t Hk Hw Ht Hp; apply canon_cases in Hk as [Hk|(k' & ps & d & Ek & -> & Hk)]; try discriminate.
  1, 2: assert (Hdq : (exists s q d, t = Dequant s q d /\ cropped_leaf s) \/ cropped_leaf t)
       by (destruct t; cbn [atom] in Hk; eauto 6);
     destruct Hdq as [(s & q & d & -> & Hc)|Hc]; [|now apply CL];
     destruct Ht as (Hts & Ed);
     assert (Hps : positive s) by (destruct Hp as (w & h & Hd & Pw & Ph); exists w, h; split; [|auto]; cbn [dsize] in Hd; destruct d; congruence);
     destruct (CL s Hc Hts Hps) as (C1 & C2); split; [split; assumption|exact C2].
  injection Ek as <-. pose proof Hp as (w & h & Hd & Pw & Ph). cbn in Hd. subst d.
  apply wf_concat in Hw as (Fw & _ & _). apply tight_concat in Ht as (Hne & Ft & Fd).
  assert (F : Forall (fun p => nonempty p /\ no_overviews p) ps).
  { rewrite Forall_forall in Fw, Ft, Fd, Hk |- *. intros p Hp'. apply IH; auto. exists w, h. auto. }
  split; [split; [exact Hp|]|unfold no_overviews; cbn]; apply forall_parts_Forall; (eapply Forall_impl; [|exact F]); cbn; tauto.
Qed.

Lemma optimized_same o t t' : built t -> names t <> None -> dq_once t -> optimizes o t t' -> files_ok E t -> positive t ->
  all_3d (in_memory E) t -> no_masks E ->
  exists a rs b, lfinalize E t' = Ok (a, rs) /\ finalize (in_memory E) t = Ok b /\ same_array (atleast3 a) b.
Proof.
  intros Hb Hn Hq Ho Hf Hp H3 Hm. destruct (built_ok _ Hb) as (Hw & Ht & He).
  destruct (optimize_same_array (in_memory E) o t t' Hb H3 Ho) as (b & b' & Eb & Eb' & S).
  destruct (finalize_exact (in_memory E) t Hw Ht He H3) as (b0 & Eb0 & _ & (n & _ & Hc & _) & _). rewrite Eb in Eb0. injection Eb0 as <-.
  destruct (optimize_total o t (built_nice _ Hb Hn) Hq) as (t1 & k & G & Hk & _).
  assert (t' = t1) by (eapply optimizes_det; [exact Ho|exact G]). subst t1.
  destruct (nice_opts o t t' (built_nice t Hb Hn) G) as ((Hw' & Ht' & _) & Ed & _).
  pose proof Ho as (f & bb & Ho'). pose proof (optimize_kept o f t t' bb Hw (exact_ov_free _ He) Ht Ho') as (_ & _ & _ & Hl).
  assert (Hp' : positive t') by (unfold positive; now rewrite Ed).
  destruct (canon_nonempty k t' Hk Hw' Ht' Hp') as (N1 & N2).
  pose proof (lazy_same E t' Hw' Ht' N2 (Hl _ Hf) N1 (or_introl Hm)) as L. rewrite Eb' in L.
  destruct (lfinalize E t') as [[a rs]|]; [|contradiction]. cbn [both fst] in L. exists a, rs, b. split; [reflexivity|]. split; [exact Eb|].
  assert (Hb3 : atleast3 b' = b'). { destruct S as (_ & _ & S & _). rewrite Hc in S. unfold atleast3. destruct b' as [? ? [?|] ?]; [reflexivity|]. discriminate. }
  rewrite Hb3 in L. destruct L as (L1 & L2 & L3 & L4), S as (S1 & S2 & S3 & S4).
  split; [congruence|]. split; [congruence|]. split; [congruence|]. intros r c j Rr Rc Rj. rewrite L4 by assumption.
  symmetry. apply S4; try lia. now rewrite S3, <- L3.
Qed.
End Reads.
