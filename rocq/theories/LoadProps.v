(* Properties of finalizing images whose leafs are files. *)
From Verif Require Import Py PyProofs GeomModel LazyModel LazySpec LazyProps.
From Verif Require Import GeomProofs GraphModel GraphSpec GraphSize GraphTotal FinalModel FinalSpec FinalProofs GraphProps LoadModel LoadSpec LoadProofs LoadReads LoadOver.
From Coq Require Import ZifyBool.
Local Open Scope Z_scope.

(** Files 1 and 2 are [ex_file] (4 x 6, two bands, one overview); leaf 3 is in memory. *)
Definition ex_env (m : option string) : env Z :=
  Env Z.eqb (fun v => v) true (fun _ _ => Err OtherError) (fun _ _ => Err OtherError)
      (World (fun id r c b => SVal (1000000 * id + 100 * r + 10 * c + b)) (fun _ => false) SNan SNan
             (fun q v => match v with SVal x => SVal (x + 100000 * q) | v => v end))
      (fun id => if (id =? 1) || (id =? 2) then Some (ex_file true, m) else None)%bool.
Definition file_img (id : Z) (nm : list string) : node := img id 6 4 nm (Some 1).
(* concat([dequantize(file 1), file 2, array 3])[1:3, 2:5] with bands 3, 0, 4 *)
Definition ex_loaded_parts : list node :=
  [mkDequant (file_img 1 ["a"; "b"]%string) (Some 1); file_img 2 ["c"; "d"]%string; img 3 6 4 ["e"%string] None].
Definition ex_loaded : node :=
  the (mkCrop (concat_of ex_loaded_parts) (Some ((Some 1, Some 3), (Some 2, Some 5))) (Some [3; 0; 4])).

Lemma made_loaded : built ex_loaded.
Proof.
  assert (L : forall id nm, made (file_img id nm)) by (intros; apply made_img; lia).
  split; [|vm_compute; auto].
  apply (made_bands (concat_of ex_loaded_parts) (Some ((Some 1, Some 3), (Some 2, Some 5))) [3; 0; 4]); [| | |vm_compute; reflexivity].
  - apply (made_concat ex_loaded_parts); [| |vm_compute; reflexivity]; [|discriminate].
    constructor; [apply (made_dequant _ _ (L 1 ["a"; "b"]%string))|]. constructor; [apply (L 2 ["c"; "d"]%string)|].
    constructor; [apply (made_img 3 6 4 ["e"%string] None); lia|constructor].
  - discriminate.
  - intros n H. vm_compute in H. injection H as <-. repeat constructor; lia.
Qed.

Lemma loaded_files m : In m methods -> files_ok (ex_env m) ex_loaded /\ nonempty ex_loaded /\ positive ex_loaded.
Proof.
  intros Hm. split; [|split].
  - cbn. unfold describes. cbn. repeat split; try lia; try exact Hm; cbn; lia.
  - cbn. repeat split; eexists _, _; (split; [reflexivity|cbn; lia]).
  - eexists _, _. split; [reflexivity|cbn; lia].
Qed.

Lemma loaded_no_masks m : m <> Some "ma"%string -> no_masks (ex_env m).
Proof.
  intros Hm. split.
  - intros id f m'. cbn. destruct ((id =? 1) || (id =? 2))%bool; congruence.
  - cbn. repeat split; try reflexivity. intros q v. destruct v; intros H; try reflexivity. discriminate.
Qed.

(** * C95: reading lazily does not change the pixels *)

Theorem C95_lazy_same {V} (E : env V) t :
  made t -> no_overviews t -> files_ok E t -> nonempty t -> no_masks E ->
  match lfinalize E t, finalize (in_memory E) t with
  | Ok (a, _), Ok b => same_array (atleast3 a) (atleast3 b)
  | Err _, Err _ => True
  | _, _ => False
  end.
Proof.
  intros Hm Ho Hf Hn Hk. destruct (made_ok _ Hm) as (Hw & Ht).
  pose proof (lazy_same E t Hw Ht Ho Hf Hn (or_introl Hk)) as H. unfold both in H. destruct (lfinalize E t) as [[a rs]|], (finalize (in_memory E) t); exact H.
Qed.
Print Assumptions C95_lazy_same.

(* and after optimize() *)
Theorem C95_optimized_same {V} (E : env V) o t t' :
  built t -> names t <> None -> dq_once t -> optimizes o t t' ->
  files_ok E t -> (exists w h, dsize t = Some (w, h) /\ 0 < w /\ 0 < h) -> all_3d (in_memory E) t -> no_masks E ->
  exists a rs b, lfinalize E t' = Ok (a, rs) /\ finalize (in_memory E) t = Ok b /\ same_array (atleast3 a) b.
Proof. intros Hb Hn Hq Ho Hf Hp H3 Hm. exact (optimized_same E o t t' Hb Hn Hq Ho Hf Hp H3 Hm). Qed.
Print Assumptions C95_optimized_same.

Example C95_case : built ex_loaded /\ no_overviews ex_loaded /\ files_ok (ex_env None) ex_loaded /\ nonempty ex_loaded /\ no_masks (ex_env None) /\
  names ex_loaded <> None /\ dq_once ex_loaded /\ all_3d (in_memory (ex_env None)) ex_loaded /\ (exists t', optimizes axis_oracle ex_loaded t') /\
  exists a rs, lfinalize (ex_env None) ex_loaded = Ok (a, rs) /\
    (a_h a, a_w a, a_c a, a_pix a 1 2 0, a_pix a 1 2 1, a_pix a 1 2 2)
    = (2, 3, Some 3, SVal 241, SVal 100240, SVal 3000240).
Proof.
  split; [apply made_loaded|]. split; [vm_compute; auto|]. destruct (loaded_files None) as (F1 & F2 & _); [left; reflexivity|].
  split; [exact F1|]. split; [exact F2|]. split; [apply loaded_no_masks; discriminate|]. split; [vm_compute; discriminate|].
  split; [vm_compute; auto|]. split; [vm_compute; auto|]. split.
  - eexists. exists 20%nat, false. vm_compute. reflexivity.
  - destruct (observe (fun ar : array (LazyModel.sample Z) * list read => let a := fst ar in (a_h a, a_w a, a_c a, a_pix a 1 2 0, a_pix a 1 2 1, a_pix a 1 2 2))
      (lfinalize (ex_env None) ex_loaded) (2, 3, Some 3, SVal 241, SVal 100240, SVal 3000240)) as ([a rs] & H1 & H2); [vm_compute; reflexivity|].
    exists a, rs. split; [exact H1|exact H2].
Qed.

(** * C96: after optimize() only samples that are shown are read *)

Theorem C96_reads_are_shown {V} (E : env V) o t t' a rs w h n :
  built t -> names t <> None -> dq_once t -> optimizes o t t' ->
  files_ok E t -> dsize t = Some (w, h) -> 0 < w -> 0 < h -> num_channels t = Some n ->
  lfinalize E t' = Ok (a, rs) ->
  (forall r id level y x b, In r rs -> reads_sample r id level y x b ->
     level = 0 /\
     exists row col k X Y dq, 0 <= row < h /\ 0 <= col < w /\ 0 <= k < n /\
       (X == centre x)%Q /\ (Y == centre y)%Q /\ vis t (centre col) (centre row) k (Samp id b X Y dq)) /\
  total rs <= w * h * n.
Proof.
  intros Hb Hn Hq Ho Hf Hd Pw Ph Hc H.
  destruct (optimized_reads E o t t' a rs Hb Hn Hq Ho Hf (ex_intro _ w (ex_intro _ h (conj Hd (conj Pw Ph)))) H) as (F & w1 & h1 & n1 & E1 & E2 & _ & _ & _ & T).
  rewrite Hd in E1. injection E1 as <- <-. rewrite Hc in E2. injection E2 as <-. split; [|exact T].
  intros r id level y x b Hr Hs. rewrite Forall_forall in F. destruct (F r Hr id level y x b Hs) as (L & rr & cc & k & X & Y & dq & w1 & h1 & n1 & G1 & G2 & G).
  rewrite Hd in G1. injection G1 as <- <-. rewrite Hc in G2. injection G2 as <-. split; [exact L|]. exists rr, cc, k, X, Y, dq. exact G.
Qed.
Print Assumptions C96_reads_are_shown.

(* without optimize() both files are read whole; afterwards 2 x 3 windows of one band *)
Example C96_case : exists t' a rs, optimizes axis_oracle ex_loaded t' /\ lfinalize (ex_env None) t' = Ok (a, rs) /\
  rs = [Rd 2 0 1 2 2 3 [1]; Rd 1 0 1 2 2 3 [0]] /\ total rs = 12 /\
  rmap (fun ar => total (snd ar)) (lfinalize (ex_env None) ex_loaded) = Ok 96.
Proof.
  assert (G : exists t', optimizes axis_oracle ex_loaded t' /\ rmap snd (lfinalize (ex_env None) t') = Ok [Rd 2 0 1 2 2 3 [1]; Rd 1 0 1 2 2 3 [0]]).
  { eexists. split; [exists 20%nat, false; vm_compute; reflexivity|vm_compute; reflexivity]. }
  destruct G as (t' & G1 & G2). destruct (lfinalize (ex_env None) t') as [[a rs]|] eqn:El; [|discriminate].
  exists t', a, rs. cbn in G2. injection G2 as ->. repeat split; try assumption.
Qed.

(** * C97: masked samples stay masked *)

(* with nodata_method='ma' concatenating channels loses the masks *)
Theorem C97_masks_kept_refuted :
  ~ (forall (E : env Z) t a rs b, made t -> no_overviews t -> files_ok E t -> nonempty t ->
       lfinalize E t = Ok (a, rs) -> finalize (in_memory E) t = Ok b -> same_array (atleast3 a) (atleast3 b)).
Proof.
  intros H. set (t := concat_of [file_img 1 ["a"; "b"]%string; file_img 2 ["c"; "d"]%string]).
  assert (Hm : made t).
  { apply (made_concat [file_img 1 ["a"; "b"]%string; file_img 2 ["c"; "d"]%string]); [| |vm_compute; reflexivity]; [|discriminate].
    constructor; [|constructor; [|constructor]]; apply made_img; lia. }
  destruct (lfinalize (ex_env (Some "ma"%string)) t) as [[a rs]|] eqn:Ea; [|vm_compute in Ea; discriminate].
  destruct (finalize (in_memory (ex_env (Some "ma"%string))) t) as [b|] eqn:Eb; [|vm_compute in Eb; discriminate].
  destruct (H (ex_env (Some "ma"%string)) t a rs b Hm) as (H1 & H2 & H3 & H4); try assumption.
  - vm_compute. auto.
  - unfold t. cbn. unfold describes. cbn. repeat split; try lia; try (right; left; reflexivity); cbn; lia.
  - unfold t. cbn. repeat split; eexists _, _; (split; [reflexivity|cbn; lia]).
  - specialize (H4 1 2 1).
    assert (Xa : rmap (fun ar => let a := atleast3 (fst ar) in (a_h a, a_w a, a_c a, a_pix a 1 2 1)) (lfinalize (ex_env (Some "ma"%string)) t) = Ok (4, 6, Some 4, SVal 121)) by (vm_compute; reflexivity).
    assert (Xb : rmap (fun b => a_pix (atleast3 b) 1 2 1) (finalize (in_memory (ex_env (Some "ma"%string))) t) = Ok (SMask 121)) by (vm_compute; reflexivity).
    rewrite Ea in Xa. rewrite Eb in Xb. cbn [rmap fst] in Xa, Xb.
    injection Xa as X1 X2 X3 X4. injection Xb as X5. rewrite X4, X5, X1, X2, X3 in H4. discriminate H4; lia.
Qed.
Print Assumptions C97_masks_kept_refuted.

(* without such a concatenation they stay *)
Theorem C97_masks_kept_partial {V} (E : env V) t :
  made t -> no_overviews t -> files_ok E t -> nonempty t -> single_parts t ->
  match lfinalize E t, finalize (in_memory E) t with
  | Ok (a, _), Ok b => same_array (atleast3 a) (atleast3 b)
  | Err _, Err _ => True
  | _, _ => False
  end.
Proof.
  intros Hm Ho Hf Hn Hk. destruct (made_ok _ Hm) as (Hw & Ht).
  pose proof (lazy_same E t Hw Ht Ho Hf Hn (or_intror Hk)) as H. unfold both in H. destruct (lfinalize E t) as [[a rs]|], (finalize (in_memory E) t); exact H.
Qed.
Print Assumptions C97_masks_kept_partial.

Example C97_masks_kept_case : let t := the (crop_to (file_img 1 ["a"; "b"]%string) 1 3 2 5) in
  made t /\ single_parts t /\ files_ok (ex_env (Some "ma"%string)) t /\ nonempty t /\
  rmap (fun ar => (a_pix (fst ar) 0 0 1, a_pix (fst ar) 0 1 1)) (lfinalize (ex_env (Some "ma"%string)) t) = Ok (SMask 121, SVal 131).
Proof.
  cbn zeta. split; [apply (made_crop (file_img 1 ["a"; "b"]%string) (Some ((Some 1, Some 3), (Some 2, Some 5)))); [apply made_img; lia|vm_compute; reflexivity]|].
  split; [exact I|]. split; [cbn; unfold describes; cbn; repeat split; try lia; try (right; left; reflexivity); cbn; lia|].
  split; [cbn; repeat split; eexists _, _; (split; [reflexivity|cbn; lia])|vm_compute; reflexivity].
Qed.

(** * C98: overviews of a file *)

(* get_overview(k1).get_overview(k2)... then possibly a crop *)
Theorem C98_level {V} (E : env V) o l f m ks t :
  let level := sum_of ks in
  l_kind l = Data -> e_disk E (l_id l) = Some (f, m) -> describes E l ->
  Forall (fun k => 0 <= k) ks -> level <= g_count f -> (0 < level -> e_fast E = true -> g_ds f level = true) ->
  0 < g_h f level -> 0 < g_w f level -> overviews ks (Leaf l) = Ok t ->
  (exists t', optimizes o t t') /\
  forall t', t' = t \/ optimizes o t t' ->
  exists a, lfinalize E t' = Ok (a, [Rd (l_id l) level 0 0 (g_h f level) (g_w f level) (span 0 (g_c f))]) /\
    shows_window E f m level 0 0 (g_h f level) (g_w f level) (span 0 (g_c f)) (atleast3 a).
Proof.
  intros level Hk Hd Hdesc F Hc Hds Hh Hw H. pose proof (sum_of_nonneg _ F) as Hp. fold level in Hp.
  pose proof (overviews_optimize o l ks t F H) as Ho. split; [eauto|]. intros t' Ht'.
  assert (Hl : lfin E t' = Ok (Ref (l_id l) (mkL f level m), [])).
  { destruct Ht' as [->|Ht']; [now apply overviews_lfin|]. rewrite (optimizes_det o t _ _ Ht' Ho). apply joined_lfin; auto. }
  unfold describes in Hdesc. rewrite Hd in Hdesc. destruct Hdesc as (_ & _ & _ & _ & HC & _ & Hm).
  destruct (ref_window E (l_id l) (mkL f level m) (0, 1) (0, 1) None t' Hl) as (G & _); [|exact G].
  unfold ready, level_ok. cbn. repeat split; auto.
Qed.
Print Assumptions C98_level.

Theorem C98_level_window {V} (E : env V) o l f m ks t y0 y1 x0 x1 ci u :
  let level := sum_of ks in
  l_kind l = Data -> e_disk E (l_id l) = Some (f, m) -> describes E l ->
  Forall (fun k => 0 <= k) ks -> level <= g_count f -> (0 < level -> e_fast E = true -> g_ds f level = true) ->
  (g_w f level, g_h f level) = overview_dsize level (l_dsize l) ->
  0 <= y0 < y1 -> y1 <= g_h f level -> 0 <= x0 < x1 -> x1 <= g_w f level ->
  match ci with Some bs => bs <> [] /\ Forall (fun i => 0 <= i < g_c f) bs | None => True end ->
  let bands := match ci with Some bs => bs | None => span 0 (g_c f) end in
  overviews ks (Leaf l) = Ok t -> mkCrop t (Some ((Some y0, Some y1), (Some x0, Some x1))) ci = Ok u ->
  forall u', u' = u \/ optimizes o u u' ->
  exists a, lfinalize E u' = Ok (a, [Rd (l_id l) level y0 x0 (y1 - y0) (x1 - x0) bands]) /\
    shows_window E f m level y0 x0 (y1 - y0) (x1 - x0) bands a.
Proof.
  intros level Hk Hd Hdesc F Hc Hds Hsz Hy Hy' Hx Hx' Hci bands H Hu u' Hu'. pose proof (sum_of_nonneg _ F) as Hp. fold level in Hp.
  pose proof (overviews_optimize o l ks t F H) as Ho. fold level in Ho.
  unfold describes in Hdesc. rewrite Hd in Hdesc. destruct Hdesc as (_ & _ & _ & _ & HC & _ & Hm).
  apply mkCrop_shape in Hu as (w & h & ys & xs & nm & nc & Hdt & -> & Sy & Sx).
  rewrite (overviews_shape l ks t F H) in Hdt. fold level in Hdt. rewrite <- Hsz in Hdt. injection Hdt as <- <-.
  apply wrap_clip_nonneg in Sy; [|lia|lia]. apply wrap_clip_nonneg in Sx; [|lia|lia].
  rewrite !Z.min_l, !Z.max_r in Sy by lia. rewrite !Z.min_l, !Z.max_r in Sx by lia. subst ys xs.
  assert (Hr : ready E (mkL f level m)) by (unfold ready, level_ok; cbn; repeat split; auto; lia).
  assert (Hcr : exists t' d nm nc, u' = Crop t' (y0, y1) (x0, x1) ci d nm nc /\ lfin E t' = Ok (Ref (l_id l) (mkL f level m), [])).
  { destruct Hu' as [->|Hu']; [eexists _, _, _, _; split; [reflexivity|now apply overviews_lfin]|].
    exists (joined l level), (iv_len (x0, x1), iv_len (y0, y1)), nm, nc. split; [|apply joined_lfin; auto].
    eapply optimizes_det; [exact Hu'|]. destruct Ho as (fu & b & Ho). exists (S fu), false. cbn [optimize]. unfold rmap at 1. rewrite Ho. cbn [bind fst].
    unfold joined, opt_crop. destruct (level =? 0); cbn [bind].
    - unfold is_nans. now rewrite Hk.
    - reflexivity. }
  destruct Hcr as (t' & d & nm' & nc' & -> & Hl).
  destruct (ref_window E (l_id l) (mkL f level m) (y0, y1) (x0, x1) ci t' Hl Hr) as (_ & G). exact (G d nm' nc' Hy Hy' Hx Hx' Hci).
Qed.
Print Assumptions C98_level_window.

(* rows 0..1 and columns 1..2 of the overview, band 1 only: two samples are read *)
Example C98_case : let l := MkLeaf 1 Data (6, 4) (Some ["a"; "b"]%string) (Some 2) (Some 1) in
  exists t u, overviews [0; 1] (Leaf l) = Ok t /\ mkCrop t (Some ((Some 0, Some 1), (Some 1, Some 3))) (Some [1]) = Ok u /\
  describes (ex_env None) l /\ sum_of [0; 1] <= g_count (ex_file true) /\
  (g_w (ex_file true) 1, g_h (ex_file true) 1) = overview_dsize 1 (l_dsize l) /\
  rmap (fun ar => (snd ar, a_pix (fst ar) 0 0 0, a_pix (fst ar) 0 1 0)) (lfinalize (ex_env None) u)
  = Ok ([Rd 1 1 0 1 1 2 [1]], SVal 1011, SVal 1021).
Proof.
  cbn zeta. eexists _, _. split; [vm_compute; reflexivity|]. split; [vm_compute; reflexivity|].
  split; [unfold describes; cbn; repeat split; try lia; try (left; reflexivity); cbn; lia|]. split; [cbn; lia|]. split; [reflexivity|vm_compute; reflexivity].
Qed.
