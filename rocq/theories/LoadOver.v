(* Overviews of files: what is read and shown. *)
From Verif Require Import Py PyProofs GeomModel GeomProofs LazyModel LazySpec LazyProofs.
From Verif Require Import GraphModel GraphSpec GraphBase GraphSize GraphTotal FinalModel FinalSpec FinalProofs LoadModel LoadSpec LoadProofs.
From Coq Require Import ZifyBool.
Local Open Scope Z_scope.

Definition sum_of (ks : list Z) : Z := fold_right Z.add 0 ks.

Lemma overviews_app ks k t : overviews (ks ++ [k]) t = (s <- overviews ks t ;; mkOverview s k).
Proof.
  revert t. induction ks as [|j ks IH]; intros t; cbn [app overviews].
  - cbn [bind]. destruct (mkOverview t k); reflexivity.
  - destruct (mkOverview t j); [apply IH|reflexivity].
Qed.

Lemma sum_of_app ks k : sum_of (ks ++ [k]) = sum_of ks + k.
Proof. unfold sum_of. induction ks as [|j ks IH]; cbn [app fold_right]; lia. Qed.
Lemma sum_of_nonneg ks : Forall (fun k => 0 <= k) ks -> 0 <= sum_of ks.
Proof. unfold sum_of. induction 1; cbn [fold_right]; lia. Qed.

Lemma overviews_shape l ks t : Forall (fun k => 0 <= k) ks -> overviews ks (Leaf l) = Ok t ->
  dsize t = Some (overview_dsize (sum_of ks) (l_dsize l)).
Proof.
  revert t. induction ks as [|k ks IH] using rev_ind; intros t F H.
  - injection H as <-. cbn [dsize]. destruct (overview_dsize_plus 0 0 (l_dsize l)) as (_ & _ & _ & E); [lia|lia|]. unfold sum_of. cbn [fold_right]. now rewrite E.
  - rewrite overviews_app in H. apply bind_ok in H as (s & Hs & H). apply Forall_app in F as (F & F2). inversion F2; subst.
    unfold mkOverview in H. rewrite (IH s F Hs) in H. injection H as <-. cbn [dsize]. rewrite sum_of_app.
    pose proof (sum_of_nonneg _ F).
    destruct (overview_dsize_plus (sum_of ks) k (l_dsize l)) as (E & _); [lia|lia|]. now rewrite E.
Qed.

Lemma overviews_total l ks : exists t, overviews ks (Leaf l) = Ok t.
Proof.
  induction ks as [|k ks IH] using rev_ind; [eexists; reflexivity|]. destruct IH as (t & IH). rewrite overviews_app, IH. cbn [bind].
  unfold mkOverview. assert (Hd : dsize t <> None); [|destruct (dsize t); [eauto|congruence]].
  clear k. revert t IH. destruct ks as [|k ks _] using rev_ind; intros t H; [injection H as <-; discriminate|].
  rewrite overviews_app in H. apply bind_ok in H as (s & Hs & H). unfold mkOverview in H. destruct (dsize s); [|discriminate]. injection H as <-. discriminate.
Qed.

(* optimize() joins the chain *)
Definition joined (l : leaf) (k : Z) : node := if k =? 0 then Leaf l else Overview (Leaf l) k (overview_dsize k (l_dsize l)).

Lemma overviews_optimize o l ks t : Forall (fun k => 0 <= k) ks -> overviews ks (Leaf l) = Ok t -> optimizes o t (joined l (sum_of ks)).
Proof.
  revert t. induction ks as [|k ks IH] using rev_ind; intros t F H.
  - injection H as <-. exists 1%nat, true. reflexivity.
  - rewrite overviews_app in H. apply bind_ok in H as (s & Hs & H). apply Forall_app in F as (F & F2). inversion F2 as [|? ? Hk _]; subst.
    pose proof (sum_of_nonneg _ F) as Hp. pose proof (overviews_shape l ks s F Hs) as Hd.
    unfold mkOverview in H. rewrite Hd in H. injection H as <-.
    destruct (IH s F Hs) as (f & b & Hf). exists (S f), false. cbn [optimize]. unfold rmap at 1. rewrite Hf. cbn [bind fst].
    rewrite sum_of_app. destruct (overview_dsize_plus (sum_of ks) k (l_dsize l)) as (E & _ & _ & E0); [lia|lia|]. rewrite E.
    unfold joined, opt_overview. destruct (Z.eqb_spec (sum_of ks) 0) as [Z0|Z0]; cbn [bind].
    + rewrite Z0 in *. rewrite Z.add_0_l in *. destruct (Z.eqb_spec k 0); reflexivity.
    + cbn [mkOverview dsize bind]. unfold mkOverview. cbn [dsize bind]. destruct (Z.eqb_spec (sum_of ks + k) 0); [lia|]. reflexivity.
Qed.

Section Over.
Context {V : Type} (E : env V).

Lemma overviews_lfin l f m ks t : l_kind l = Data -> e_disk E (l_id l) = Some (f, m) -> Forall (fun k => 0 <= k) ks ->
  sum_of ks <= g_count f -> overviews ks (Leaf l) = Ok t -> lfin E t = Ok (Ref (l_id l) (mkL f (sum_of ks) m), []).
Proof.
  intros Hk Hd. revert t. induction ks as [|k ks IH] using rev_ind; intros t F Hc H.
  - injection H as <-. cbn [lfin]. rewrite Hk, Hd. reflexivity.
  - rewrite overviews_app in H. apply bind_ok in H as (s & Hs & H). apply Forall_app in F as (F & F2). inversion F2 as [|? ? Hk' _]; subst.
    rewrite sum_of_app in Hc. unfold mkOverview in H. destruct (dsize s); [|discriminate]. injection H as <-. cbn [lfin].
    rewrite (IH s F) by (assumption || lia). cbn [bind]. unfold LazyModel.num_overviews. cbn [l_file l_overview].
    destruct (Z.leb_spec k (g_count f - sum_of ks)); [|lia]. unfold get_overview, get_absolute_overview. cbn [l_file l_overview l_method].
    rewrite sum_of_app. now replace (k + sum_of ks) with (sum_of ks + k) by lia.
Qed.

Lemma joined_lfin l f m k : l_kind l = Data -> e_disk E (l_id l) = Some (f, m) -> 0 <= k <= g_count f ->
  lfin E (joined l k) = Ok (Ref (l_id l) (mkL f k m), []).
Proof.
  intros Hk Hd Hc. unfold joined. destruct (Z.eqb_spec k 0) as [->|N]; cbn [lfin]; rewrite Hk, Hd; [reflexivity|]. cbn [bind].
  unfold LazyModel.num_overviews, get_overview, get_absolute_overview, open. cbn [l_file l_overview l_method].
  destruct (Z.leb_spec k (g_count f - 0)); [|lia]. now rewrite Z.add_0_r.
Qed.

Lemma ref_window id s ys xs ci t : lfin E t = Ok (Ref id s, []) -> ready E s ->
  (exists a, lfinalize E t = Ok (a, [Rd id (l_overview s) 0 0 (g_h (l_file s) (l_overview s)) (g_w (l_file s) (l_overview s)) (span 0 (g_c (l_file s)))]) /\
     shows_window E (l_file s) (l_method s) (l_overview s) 0 0 (g_h (l_file s) (l_overview s)) (g_w (l_file s) (l_overview s)) (span 0 (g_c (l_file s))) (atleast3 a)) /\
  forall d nm nc, 0 <= fst ys < snd ys -> snd ys <= g_h (l_file s) (l_overview s) ->
    0 <= fst xs < snd xs -> snd xs <= g_w (l_file s) (l_overview s) ->
    match ci with Some l => l <> [] /\ Forall (fun i => 0 <= i < g_c (l_file s)) l | None => True end ->
    exists a, lfinalize E (Crop t ys xs ci d nm nc) =
       Ok (a, [Rd id (l_overview s) (fst ys) (fst xs) (iv_len ys) (iv_len xs) (bands_of (l_file s) ci)]) /\
     shows_window E (l_file s) (l_method s) (l_overview s) (fst ys) (fst xs) (iv_len ys) (iv_len xs) (bands_of (l_file s) ci) a.
Proof.
  intros Hl Hr. split.
  - destruct (fetch_full E id s Hr) as (a & Ha & S1 & S2 & S3 & S4). exists a. unfold lfinalize. rewrite Hl. cbn [bind force]. rewrite Ha. cbn [bind app].
    split; [reflexivity|]. cbn [content a_h a_w a_c a_pix] in S1, S2, S3, S4.
    pose proof Hr as (_ & _ & Hh & Hw & HC & _).
    repeat split; auto.
    + rewrite S3, span_length, Z2Nat.id by lia. reflexivity.
    + intros r c k b Rr Rc Hb. assert (Hk : (k < List.length (span 0 (g_c (l_file s))))%nat) by (apply nth_error_Some; congruence).
      rewrite span_length in Hk. apply (nth_error_nth _ _ 0) in Hb. rewrite <- (Nat2Z.id k) in Hb at 1. rewrite span_nth in Hb by lia.
      rewrite S4; [|lia|lia|rewrite S3; lia]. f_equal; lia.
  - intros d nm nc Hy Hy' Hx Hx' Hci. destruct (fetch_crop E id s ys xs ci Hr Hy Hy' Hx Hx' Hci) as (a & x & Ha & Hi & S1 & S2 & S3 & S4).
    exists (atleast3 a). unfold lfinalize. cbn [lfin]. rewrite Hl. cbn [bind]. rewrite Ha. cbn [bind force app]. split; [reflexivity|].
    unfold index_array in Hi. cbn [content a_h a_w a_c a_pix] in Hi. rewrite !axis_slice_in in Hi by lia.
    destruct ci as [li|]; cbn [bands_of].
    + destruct Hci as (Hne & Fl). rewrite mapR_np_index in Hi by exact Fl. cbn [bind] in Hi. injection Hi as <-. cbn [a_h a_w a_c a_pix] in S1, S2, S3, S4.
      repeat split; auto. intros r c k b Rr Rc Hb. assert (Hk : (k < List.length li)%nat) by (apply nth_error_Some; congruence).
      rewrite S4; [|lia|lia|rewrite S3; lia]. rewrite Nat2Z.id. rewrite (nth_error_nth _ _ 0 Hb). f_equal; lia.
    + injection Hi as <-. cbn [a_h a_w a_c a_pix] in S1, S2, S3, S4. pose proof Hr as (_ & _ & _ & _ & HC & _).
      repeat split; auto.
      * rewrite S3, span_length, Z2Nat.id by lia. reflexivity.
      * intros r c k b Rr Rc Hb. assert (Hk : (k < List.length (span 0 (g_c (l_file s))))%nat) by (apply nth_error_Some; congruence).
        rewrite span_length in Hk. apply (nth_error_nth _ _ 0) in Hb. rewrite <- (Nat2Z.id k) in Hb at 1. rewrite span_nth in Hb by lia.
        rewrite S4; [|lia|lia|rewrite S3; lia]. f_equal; lia.
Qed.

End Over.
