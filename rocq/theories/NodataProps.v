(* C127: images without data. *)
From Verif Require Import PyProofs GeomModel NodataModel.
Local Open Scope Z_scope.

(* what a window of the axis [0, D) leaves *)
Definition kept (D : Z) (i : ival) : Z := Z.max 0 (Z.min D (snd i) - Z.max 0 (fst i)).

(* size and names after the operations *)
Inductive comes_to : size -> list string -> list nd_op -> size -> list string -> Prop :=
| Comes_end d nm : comes_to d nm [] d nm
| Comes_warp d nm d' ops e en : comes_to d' nm ops e en -> comes_to d nm (NDWarp d' :: ops) e en
| Comes_crop w h nm ys xs ops e en : fst ys <= snd ys -> fst xs <= snd xs ->
    comes_to (kept w xs, kept h ys) nm ops e en -> comes_to (w, h) nm (NDCrop ys xs None :: ops) e en
| Comes_bands w h nm ys xs l nm' ops e en : fst ys <= snd ys -> fst xs <= snd xs ->
    Forall2 (fun i s => 0 <= i /\ nth_error nm (Z.to_nat i) = Some s) l nm' ->
    comes_to (kept w xs, kept h ys) nm' ops e en -> comes_to (w, h) nm (NDCrop ys xs (Some l) :: ops) e en.

(* sizes are not negative *)
Definition sized_op (op : nd_op) : Prop := match op with NDWarp d => 0 <= fst d /\ 0 <= snd d | _ => True end.

(* Images without data can be read with every method that files can be read with: false
   for 'auto'. *)
Theorem C127_methods_refuted : ~ (forall d nm m memory, In m [None; Some "ma"; Some "float"; Some "nan"; Some "auto"]%string ->
  exists a, nd_finalize memory (new_nodata 1 d (Some nm) m) = Ok a).
Proof.
  intros H. destruct (H (2, 2) ["a"%string] (Some "auto"%string) (fun _ _ _ => 0)) as (a & E); [cbn; tauto|]. vm_compute in E. discriminate.
Qed.
Print Assumptions C127_methods_refuted.

Lemma embed_kept D i : 0 <= D -> fst i <= snd i -> exists d e, embed_axis D (fst i) (snd i) 0 = Ok (d, e) /\ iv_len d = kept D i.
Proof.
  intros HD Hi. unfold embed_axis. destruct (Z.ltb_spec (snd i) (fst i)); [lia|]. eexists _, _. split; [reflexivity|].
  unfold iv_len, kept. cbn [fst snd]. lia.
Qed.
Lemma kept_nonneg D i : 0 <= kept D i.
Proof. unfold kept. lia. Qed.
Lemma select_all nm l nm' : Forall2 (fun i s => 0 <= i /\ nth_error nm (Z.to_nat i) = Some s) l nm' -> select_names nm l = Ok nm'.
Proof.
  unfold select_names. induction 1 as [|i s l nm' (Hi & Hs) _ IH]; [reflexivity|]. cbn [mapR]. rewrite IH.
  assert (E : py_get nm i = Ok s); [|now rewrite E].
  unfold py_get. cbv zeta. destruct (Z.ltb_spec i 0); [lia|]. destruct (Z.ltb_spec i 0); [lia|]. now rewrite Hs.
Qed.

(* Whatever is cropped, warped and selected, the image is missing in full, in the way
   the method asks for, and has the size and the bands of the operations.  What is
   missing: other methods. *)
Theorem C127_nodata_partial : forall memory m d nm ops e en, comes_to d nm ops e en -> 0 <= fst d -> 0 <= snd d -> Forall sized_op ops ->
  In m [None; Some "ma"; Some "float"; Some "nan"]%string -> forall id,
  exists n a, nd_run (new_nodata id d (Some nm) m) ops = Ok n /\ nd_finalize memory n = Ok a /\
    (ga_w a, ga_h a) = e /\ 0 <= fst e /\ 0 <= snd e /\ ga_c a = Z.of_nat (List.length en) /\ l_names (nd_leaf n) = Some en /\
    forall y x b, match m with Some "ma"%string => exists g, ga_at a y x b = GMasked g | _ => ga_at a y x b = GNan end.
Proof.
  intros memory m d nm ops e en H. induction H as [d nm|d nm d' ops e en H IH|w h nm ys xs ops e en Hy Hx H IH|w h nm ys xs l nm' ops e en Hy Hx Hs H IH];
    intros Hw Hh Ho Hm id; cbn [nd_run].
  - destruct d as (w & h). exists (new_nodata id (w, h) (Some nm) m). cbn in Hw, Hh.
    exists (mkGaps h w (Z.of_nat (List.length nm)) (fun y x b => match m with Some "ma"%string => GMasked (memory y x b) | _ => GNan end)).
    cbn [In] in Hm. destruct Hm as [<- | [<- | [<- | [<- | []]]]]; (repeat split; try assumption; cbn; eauto).
  - inversion Ho as [|? ? Hz Ho']; subst. cbn in Hz. destruct Hz as (H1 & H2). cbn [nd_step bind new_nodata nd_leaf l_id l_names nd_kwargs]. now apply IH.
  - inversion Ho as [|? ? _ Ho']; subst. cbn in Hw, Hh. cbn [nd_step new_nodata nd_leaf nans_crop l_names l_dsize fst snd].
    destruct (embed_kept h ys Hh Hy) as (dy & ey & E1 & L1). destruct (embed_kept w xs Hw Hx) as (dx & ex & E2 & L2).
    unfold nans_crop. cbn [bind l_names l_dsize fst snd]. rewrite E1. cbn [bind]. rewrite E2. cbn [bind nans_leaf l_id l_dsize l_names nd_kwargs]. rewrite L1, L2.
    apply IH; auto; apply kept_nonneg.
  - inversion Ho as [|? ? _ Ho']; subst. cbn in Hw, Hh. cbn [nd_step new_nodata nd_leaf nans_crop l_names l_dsize fst snd].
    destruct (embed_kept h ys Hh Hy) as (dy & ey & E1 & L1). destruct (embed_kept w xs Hw Hx) as (dx & ex & E2 & L2).
    unfold nans_crop. cbn [bind l_names l_dsize fst snd]. rewrite (select_all _ _ _ Hs). cbn [rmap bind]. rewrite E1. cbn [bind]. rewrite E2.
    cbn [bind nans_leaf l_id l_dsize l_names nd_kwargs]. rewrite L1, L2. apply IH; auto; apply kept_nonneg.
Qed.
Print Assumptions C127_nodata_partial.

Example C127_case : comes_to (10, 8) ["a"; "b"]%string [NDCrop (-2, 5) (4, 20) (Some [1; 1; 0]); NDWarp (7, 7); NDCrop (0, 3) (9, 12) None] (0, 3) ["b"; "b"; "a"]%string.
Proof.
  apply (Comes_bands 10 8 ["a"; "b"]%string (-2, 5) (4, 20) [1; 1; 0] ["b"; "b"; "a"]%string); cbn; try lia; [repeat constructor; lia|].
  apply Comes_warp. apply (Comes_crop 7 7 ["b"; "b"; "a"]%string (0, 3) (9, 12)); cbn; try lia. apply Comes_end.
Qed.
