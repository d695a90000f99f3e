(* One round of optimize() as a relation between trees, and the proof that every
   run of the object level optimizer follows it. *)
From Verif Require Import Py PyProofs GeomModel GraphModel GraphSpec GraphBase GraphTake GraphOpt GraphMain MemoModel MemoFrame.
From Coq Require Import Lia.

(** ** Rounds: GraphModel.v with the recursive calls given by a relation *)

Section Rounds.
Variable o : oracle.
Variable P : node -> node -> Prop.

Definition r_push (t n : node) : Prop :=
  exists sd, subdata t = Ok sd /\
  match sd with
  | Some (Concat _ _) =>
      exists p, push_under t = Ok p /\ match p with Some p => P p n | None => n = t end
  | _ => n = t
  end.

Definition r_split (s : node) (M : affine) (d : size) (al : algo) (r : option node) : Prop :=
  exists no, num_overviews s = Ok no /\
  match no with
  | None => r = None
  | Some n =>
      if (n =? 0)%Z then r = None else
      exists lv, split_levels o M = Ok lv /\
      match lv with
      | None => r = None
      | Some poss =>
          let k := Z.min n poss in
          if (k =? 0)%Z then r = None else
          exists R ov, split_residual M k = Ok R /\ mkOverview s k = Ok ov /\
          if is_identity R then
            if opt_size_eqb (dsize ov) (Some d) then r = Some ov
            else exists c n, padded_crop_node ov (0, snd d)%Z (0, fst d)%Z = Ok c /\ P c n /\ r = Some n
          else r = Some (Warp ov R d (drop_backend al))
      end
  end.

Definition r_sub (t n : node) : Prop :=
  match t with
  | Leaf _ | Concat _ _ => False
  | Crop s ys xs ci d nm nc => exists s', P s s' /\ n = Crop s' ys xs ci d nm nc
  | Warp s M d al => exists s', P s s' /\ n = Warp s' M d al
  | Dequant s q d => exists s', P s s' /\ n = Dequant s' q d
  | Overview s k d => exists s', P s s' /\ n = Overview s' k d
  end.

Definition r_warp (s1 : node) (M : affine) (d : size) (al : algo) (n : node) : Prop :=
  let '(s, M', al') := match s1 with
                       | Warp s2 M1 _ _ => (s2, aff_mul M M1, drop_backend al)
                       | _ => (s1, M, al)
                       end in
  let other := fun _ : unit =>
    exists sp, r_split s M' d al' sp /\
    match sp with
    | Some n0 => exists n', r_sub n0 n' /\ P n' n
    | None => absorb o s M' d al' = Ok n
    end in
  if opt_size_eqb (Some d) (dsize s) && close_identity (al_eps al') M' then n = s
  else match s with
       | Concat _ _ => r_push (Warp s M' d al') n
       | Leaf l => if is_nans l then n = nans_warp l d else other tt
       | _ => other tt
       end.

Definition r_dequant (s1 : node) (q : option Z) (d : option size) (n : node) : Prop :=
  match s1 with
  | Dequant _ _ _ => False
  | Warp s M wd al => exists n', P (Warp (mkDequant s q) M wd al) n' /\ r_push n' n
  | _ => r_push (Dequant s1 q d) n
  end.

(* whatever holds of [t] and is kept by parts, concatenations and selections holds of [t'] *)
Definition closed_take (t t' : node) : Prop :=
  forall Q : node -> Prop,
  (forall ps d, Q (Concat ps d) -> Forall Q ps) ->
  (forall ps n, ps <> [] -> Forall Q ps -> mkConcat ps = Some n -> Q n) ->
  (forall t idxs n, idxs <> [] -> Q t -> mkCrop t None (Some idxs) = Ok n -> Q n) ->
  Q t -> Q t'.

(* [t'] consists of the bands [l] of [t] *)
Definition r_take (t : node) (l : list Z) (t' : node) : Prop :=
  (forall m, wf t -> num_channels t = Some m -> in_range m l -> takes t l t') /\
  (l <> [] -> closed_take t t').

Definition r_crop_tail (t n : node) : Prop :=
  match t with
  | Crop (Concat ps cd) ys xs ci _ _ _ =>
      exists taken c p,
      match ci with
      | None => taken = Concat ps cd
      | Some l => exists t', r_take (Concat ps cd) l t' /\ P t' taken
      end /\
      mkCrop taken (Some (some_slice ys, some_slice xs)) None = Ok c /\
      push_under c = Ok p /\
      P (match p with Some p => p | None => c end) n
  | _ => r_push t n
  end.

Definition r_crop (s1 : node) (ys xs : ival) (ci : option (list Z)) (d : size)
  (nm : option (list string)) (nc : option Z) (n : node) : Prop :=
  exists c1,
  match s1 with
  | Crop s2 ys1 xs1 ci1 _ _ _ => fuse_crops s2 ys1 xs1 ci1 ys xs ci = Ok c1
  | _ => c1 = Crop s1 ys xs ci d nm nc
  end /\
  match c1 with
  | Crop (Leaf l) _ _ _ _ _ _ =>
      if is_nans l then nans_crop l ys xs ci = Ok n else n = c1
  | Crop (Warp s M _ al) ys' xs' ci' d' _ _ =>
      if al_nearest al then n = c1 else
      exists r, warp_after_crop s M ys' xs' ci' d' = Ok r /\
      match r with
      | None => n = c1
      | Some (c, T) => exists n', P (Warp c T d' (drop_backend al)) n' /\ r_crop_tail n' n
      end
  | Crop (Dequant s q _) ys' xs' ci' d' nm' nc' =>
      exists n', P (Dequant (Crop s ys' xs' ci' d' nm' nc') q (Some d')) n' /\ r_crop_tail n' n
  | _ => r_crop_tail c1 n
  end.

Definition r_overview (s1 : node) (k : Z) (d : size) (n : node) : Prop :=
  exists o1,
  match s1 with
  | Overview s2 k2 _ => mkOverview s2 (k2 + k) = Ok o1
  | _ => o1 = Overview s1 k d
  end /\
  match o1 with
  | Overview s k1 d1 =>
      if (k1 =? 0)%Z then r_push s n
      else match s with
           | Crop s2 ys xs ci _ _ _ =>
               exists n0 n', crop_after_overview s2 ys xs ci k1 = Ok n0 /\ P n0 n' /\ r_push n' n
           | Warp s2 B _ _ =>
               exists n0 n', warp_after_overview_node s2 B k1 = Ok n0 /\ P n0 n' /\ r_push n' n
           | Dequant s2 q _ =>
               exists n', P (Dequant (Overview s2 k1 d1) q (Some d1)) n' /\ r_push n' n
           | _ => r_push o1 n
           end
  | _ => False
  end.

Definition round (t n : node) : Prop :=
  match t with
  | Leaf _ => n = t
  | Concat ps _ => exists qs, Forall2 P ps qs /\
      (qs = ps /\ n = t \/ n = match mkConcat qs with Some c => c | None => t end)
  | Warp s M d al => exists s1, P s s1 /\ r_warp s1 M d al n
  | Dequant s q d => exists s1, P s s1 /\ r_dequant s1 q d n
  | Crop s ys xs ci d nm nc => exists s1, P s s1 /\ r_crop s1 ys xs ci d nm nc n
  | Overview s k d => exists s1, P s s1 /\ r_overview s1 k d n
  end.

End Rounds.

(** ** Trees for which no meta dict is written *)

(* without overviews, without dequantizations, or without warps and overviews *)
Inductive class := NoOverviews | NoDequants | NoWarps.
Definition klass (b : class) (t : node) : Prop :=
  match b with NoOverviews => ov_less t | NoDequants => dq_free t | NoWarps => exact t end.

Lemma klass_concat b ps d : klass b (Concat ps d) <-> Forall (klass b) ps.
Proof. destruct b; cbn [klass ov_less dq_free exact]; apply forall_parts_Forall. Qed.
Lemma klass_crop b s ys xs ci d nm nc : klass b (Crop s ys xs ci d nm nc) <-> klass b s.
Proof. destruct b; reflexivity. Qed.
Lemma klass_warp b s M d al : klass b (Warp s M d al) <-> b <> NoWarps /\ klass b s.
Proof. destruct b; cbn; intuition congruence. Qed.
Lemma klass_deq b s q d : klass b (Dequant s q d) <-> b <> NoDequants /\ klass b s.
Proof. destruct b; cbn; intuition congruence. Qed.
Lemma klass_ov b s k d : klass b (Overview s k d) <-> b = NoDequants /\ klass b s.
Proof. destruct b; cbn; intuition congruence. Qed.

Lemma klass_mkCrop b s sl ci n : klass b s -> mkCrop s sl ci = Ok n -> klass b n.
Proof.
  intros K H. unfold mkCrop in H. destruct (dsize s) as [[w h]|]; [|discriminate].
  apply bind_ok in H as ([ys xs] & _ & H). apply bind_ok in H as ([nm nc] & _ & H). injection H as <-.
  now apply klass_crop.
Qed.
Lemma klass_mkConcat b ps n : Forall (klass b) ps -> mkConcat ps = Some n -> klass b n.
Proof. intros F H. apply mkConcat_spec in H as (d & -> & _). now apply klass_concat. Qed.

Lemma mkCrop_shape s sl ci n : mkCrop s sl ci = Ok n ->
  exists ys xs d nm nc, n = Crop s ys xs ci d nm nc.
Proof.
  intros H. unfold mkCrop in H. destruct (dsize s) as [[w h]|]; [|discriminate].
  apply bind_ok in H as ([ys xs] & _ & H). apply bind_ok in H as ([nm nc] & _ & H). injection H as <-. eauto 10.
Qed.
Lemma warp_after_crop_shape s M ys xs ci d c T : warp_after_crop s M ys xs ci d = Ok (Some (c, T)) ->
  exists sl, mkCrop s sl ci = Ok c.
Proof.
  unfold warp_after_crop. destruct (_ || _)%bool; [discriminate|]. destruct (axis_aligned M).
  - destruct (dsize s) as [[w h]|]; [|discriminate].
    destruct (fast_axis _ _ w xs) as [xsl ox]. destruct (fast_axis _ _ h ys) as [ysl oy].
    intros H. apply bind_ok in H as (c' & Hc & H). injection H as <- <-. eauto.
  - intros H. apply bind_ok in H as ([[ysl xsl] T'] & _ & H). apply bind_ok in H as (c' & Hc & H).
    injection H as <- <-. eauto.
Qed.

Lemma klass_push b t p : klass b t -> push_under t = Ok (Some p) -> klass b p.
Proof.
  intros K H. destruct t as [l|ps d|s ys xs ci d nm nc|s M d al|s q d|s k d]; try discriminate;
    destruct s as [| ps d0 | | | | ]; try discriminate; cbn [push_under] in H.
  - apply klass_crop, klass_concat in K. destruct (mapR _ ps) as [qs|] eqn:E; [|discriminate]. injection H as H.
    eapply klass_mkConcat; [|exact H]. apply mapR_Forall2 in E. clear H.
    induction E as [|p0 q0 ps qs Hp E IH]; constructor; apply Forall_cons_iff in K as [K1 K2]; auto.
    eapply klass_mkCrop; eassumption.
  - apply klass_warp in K as [Kw K]. apply klass_concat in K. injection H as H. eapply klass_mkConcat; [|exact H].
    apply Forall_map. eapply Forall_impl; [|exact K]. intros a Ka. apply klass_warp. auto.
  - apply klass_deq in K as [Kb K]. apply klass_concat in K. injection H as H. eapply klass_mkConcat; [|exact H].
    apply Forall_map. eapply Forall_impl; [|exact K]. intros a Ka. apply klass_deq. auto.
  - apply klass_ov in K as [Kb K]. apply klass_concat in K.
    destruct (mapR _ ps) as [qs|] eqn:E; [|discriminate]. injection H as H.
    eapply klass_mkConcat; [|exact H]. apply mapR_Forall2 in E. clear H.
    induction E as [|p0 q0 ps qs Hp E IH]; constructor; apply Forall_cons_iff in K as [K1 K2]; auto.
    apply mkOverview_meta in Hp as (sz & _ & ->). now apply klass_ov.
Qed.

Lemma klass_mkOverview b s k n : b = NoDequants -> klass b s -> mkOverview s k = Ok n -> klass b n.
Proof. intros Hb K H. apply mkOverview_meta in H as (d & _ & ->). now apply klass_ov. Qed.
Lemma klass_mkWarp_auto b s M al n : b <> NoWarps -> klass b s -> mkWarp_auto s M al = Ok n -> klass b n.
Proof. intros Kw K H. apply mkWarp_auto_meta in H as (d & ->). now apply klass_warp. Qed.
Lemma klass_padded b s ys xs n : b <> NoWarps -> klass b s -> padded_crop_node s ys xs = Ok n -> klass b n.
Proof.
  intros Kw K H. unfold padded_crop_node in H. destruct (dsize s) as [sz|]; [|discriminate].
  apply bind_ok in H as ([[dy dx] tf] & _ & H). apply bind_ok in H as (c & Hc & H).
  apply (klass_mkCrop b) in Hc; [|exact K]. destruct tf as [[T d]|]; injection H as <-; [now apply klass_warp|exact Hc].
Qed.
Lemma klass_crop_after_overview b s ys xs ci k n : b = NoDequants -> klass b s ->
  crop_after_overview s ys xs ci k = Ok n -> klass b n.
Proof.
  intros Hb K H. unfold crop_after_overview in H. apply bind_ok in H as (o & Ho & H).
  apply (klass_mkOverview b) in Ho; [|exact Hb|exact K].
  destruct (overview_crop_axis k xs) as [qx ox]. destruct (overview_crop_axis k ys) as [qy oy].
  apply bind_ok in H as (c & Hc & H). apply (klass_mkCrop b) in Hc; [|exact Ho].
  destruct (is_identity _); [injection H as <-; exact Hc|]. eapply klass_mkWarp_auto; [subst b; discriminate| |]; eassumption.
Qed.
Lemma klass_warp_after_overview b s B k n : b = NoDequants -> klass b s ->
  warp_after_overview_node s B k = Ok n -> klass b n.
Proof.
  intros Hb K H. unfold warp_after_overview_node in H. apply bind_ok in H as (C & _ & H).
  apply bind_ok in H as (o & Ho & H). apply (klass_mkOverview b) in Ho; [|exact Hb|exact K].
  eapply klass_mkWarp_auto; [subst b; discriminate| |]; eassumption.
Qed.
Lemma klass_warp_after_crop b s M ys xs ci d c T : klass b s ->
  warp_after_crop s M ys xs ci d = Ok (Some (c, T)) -> klass b c.
Proof. intros K H. apply warp_after_crop_shape in H as (sl & H). eapply klass_mkCrop; eassumption. Qed.

(** ** Band selections whose runs are cut by identity *)

Lemma F2_len {A B} (R : A -> B -> Prop) l l' : Forall2 R l l' -> List.length l = List.length l'.
Proof. induction 1; cbn; congruence. Qed.

Lemma assemble ps d idxs m nl sizes wh wh' comps c :
  wf (Concat ps d) -> num_channels (Concat ps d) = Some m -> in_range m idxs ->
  concat_opt (map names ps) = Some nl -> known_all (map num_channels ps) = Some sizes ->
  Forall2 (fun i pj => unravel sizes i 0 = Ok pj) idxs wh ->
  Forall2 (fun a b => snd a = snd b /\ nth_error ps (fst a) = nth_error ps (fst b)) wh wh' ->
  Forall2 (serves ps) (segments wh') comps ->
  mkConcat comps = Some c -> takes (Concat ps d) idxs c.
Proof.
  intros Hw Hm Hr Enl Ek Hwh Hcan Hserve Ec.
  apply wf_concat in Hw as (Hwps & Hds & Hnil).
  assert (Hmeta : Forall meta_ok ps) by (eapply Forall_impl; [|exact Hwps]; intros; now apply wf_meta).
  pose proof (F2_len _ _ _ Hwh) as Hlen.
  pose proof (F2_len _ _ _ Hcan) as Hlen'.
  pose proof (segments_flat wh') as Hflat.
  assert (Hwc : Forall wf comps).
  { clear -Hserve. induction Hserve as [|seg comp segs comps (q & n & _ & _ & _ & Ht) F IH]; constructor; auto.
    apply Ht. }
  pose proof (mkConcat_wf _ _ Hwc Ec) as Hwn.
  pose proof Ec as Ec'. apply mkConcat_spec in Ec' as (d' & -> & Hd' & Hnil').
  split; [exact Hwn|]. split; [|split; [|split; [|split]]].
  - intros r Hrg. apply reg_concat in Hrg. apply reg_concat. rewrite Forall_forall in Hrg.
    clear -Hserve Hrg. induction Hserve as [|seg comp segs comps (q & n & Hq & _ & _ & Ht) F IH]; constructor; auto.
    apply Ht, Hrg. eapply nth_error_In; exact Hq.
  - cbn [names]. rewrite Enl.
    destruct (serves_names _ _ _ Hserve) as (l & Hl & F2); [|exact Hmeta|].
    { intros q Hq. eapply concat_opt_known; [exact Enl|]. now apply in_map. }
    rewrite Hl. cbn. rewrite Hflat in F2.
    assert (Hsel : select_names nl idxs = Ok l).
    { unfold select_names. apply select_spec; [eapply Forall_impl; [|exact Hr]; cbn; intros; lia|].
      clear -Hwh Hcan F2 Ek Hmeta Enl. revert wh' Hcan l F2.
      induction Hwh as [|i [p j] idxs wh Hi F IH]; intros wh' Hcan l F2.
      - inversion Hcan; subst. inversion F2. constructor.
      - inversion Hcan as [|? [p' j'] ? wh2 [E1 E2] Hcan']; subst. cbn [fst snd] in *. subst j'.
        inversion F2 as [|? s ? l' (q & lq & Hq & Hlq & Hs) F2']; subst. cbn [fst snd] in *. constructor; [|eauto].
        destruct (unravel_spec (fun _ _ => True) _ _ _ _ _ _ Ek Hi) as (q' & n & _ & Hn & Hq' & Hj & _ & _ & Hmm).
        rewrite Nat.sub_0_r in Hn. assert (q' = q) by congruence. subst q'.
        destruct (Hmm Hmeta) as [_ Hl]. destruct (Hl _ Enl) as (lq' & Hlq' & He).
        assert (lq' = lq) by congruence. subst. congruence. }
    now rewrite Hsel.
  - cbn [num_channels]. rewrite (serves_nc _ _ _ Hserve), Hflat. congruence.
  - intros Hne. cbn [dsize].
    pose proof (serves_dsize _ _ _ _ Hserve Hds (segments_nonempty wh')) as Hdc.
    destruct comps as [|c0 comps].
    + exfalso. inversion Hserve as [E0|]. rewrite <- E0 in Hflat. cbn in Hflat. subst wh'.
      destruct idxs; [congruence|]. cbn in *. lia.
    + inversion Hd'; inversion Hdc; subst. congruence.
  - intros x y c b s [Hc Hb] Hv. eapply mkConcat_vis; [exact Ec|].
    destruct (Forall2_nth_l _ _ _ _ _ Hwh Hb) as ([p j] & Hpj & Hu).
    destruct (Forall2_nth_l _ _ _ _ _ Hcan Hpj) as ([p' j'] & Hpj' & E1 & E2). cbn [fst snd] in E1, E2. subst j'.
    cbn [vis] in Hv. destruct Hv as [_ Ho].
    destruct (unravel_spec (fun p c' => vis p x y c' s) _ _ _ _ _ _ Ek Hu) as (q & n & _ & Hn & _ & _ & Hown & _).
    rewrite Nat.sub_0_r in Hn. eapply serves_owner; [exact Hserve|exact Hc| | |apply Hown, Ho].
    + rewrite Hflat. exact Hpj'.
    + now rewrite <- E2.
Qed.

(** ** Worlds with identities *)

(* [gh] says which object has an identity *)
Record gworld := GW { gh : nat -> option obj; gs : store }.

Definition vw (w : gworld) (x : obj) : node := view (sizes (gs w)) x.
Definition dz (w : gworld) (m : nat) : option size := sizes (gs w) m.
Definition has (w : gworld) (m : nat) : Prop := (m < next (gs w))%nat.

Fixpoint held (w : gworld) (x : obj) : Prop :=
  has w (oid x) /\ gh w (oid x) = Some x /\
  match x with
  | OLeaf _ _ => True
  | OConcat _ ps _ => (fix go ps := match ps with [] => True | p :: r => held w p /\ go r end) ps
  | OCrop _ m s _ _ _ _ _ | OWarp _ m s _ _ | ODequant _ m s _ | OOverview _ m s _ => has w m /\ held w s
  end.

Lemma held_concat w i ps d : held w (OConcat i ps d) <->
  has w i /\ gh w i = Some (OConcat i ps d) /\ Forall (held w) ps.
Proof.
  cbn [held oid]. apply and_iff_compat_l, and_iff_compat_l.
  induction ps as [|p ps IH]; [split; constructor|]. rewrite Forall_cons_iff.
  assert (IH' : (fix go ps := match ps with [] => True | p :: r => held w p /\ go r end) ps <-> Forall (held w) ps).
  { clear. induction ps as [|p ps IH]; [split; constructor|]. rewrite Forall_cons_iff, <- IH. reflexivity. }
  rewrite <- IH'. reflexivity.
Qed.

Lemma held_gh w x : held w x -> gh w (oid x) = Some x.
Proof. destruct x; cbn; intros H; apply H. Qed.
Lemma held_same w x y : held w x -> held w y -> oid x = oid y -> x = y.
Proof. intros Hx Hy E. apply held_gh in Hx, Hy. congruence. Qed.

Definition gle (w w' : gworld) : Prop :=
  (next (gs w) <= next (gs w'))%nat /\
  forall i, has w i -> gh w' i = gh w i /\ dz w' i = dz w i.

Lemma gle_refl w : gle w w.
Proof. split; auto. Qed.
Lemma gle_trans a b c : gle a b -> gle b c -> gle a c.
Proof.
  intros [H1 H2] [G1 G2]. split; [lia|]. intros i Hi. unfold has in *. destruct (H2 i Hi) as [A B].
  destruct (G2 i ltac:(lia)) as [C D]. split; congruence.
Qed.
Lemma has_le w w' m : gle w w' -> has w m -> has w' m.
Proof. unfold gle, has. lia. Qed.
Lemma dz_le w w' m : gle w w' -> has w m -> dz w' m = dz w m.
Proof. intros [_ H] Hm. now apply H. Qed.

Lemma held_le w w' x : gle w w' -> held w x -> held w' x.
Proof.
  intros [H1 H2]. induction x as [i l|i ps d IH|i m s ys xs ci nm nc IH|i m s M al IH|i m s q IH|i m s k IH]
    using obj_ind';
    try (cbn [held oid]; unfold has in *; intros (A & B & C); destruct (H2 _ A) as [E _]; rewrite E;
         repeat split; try tauto; try lia; apply IH; tauto).
  rewrite !held_concat. intros (A & B & C). destruct (H2 _ A) as [E _]. rewrite E.
  split; [unfold has in *; lia|]. split; [exact B|]. rewrite Forall_forall in *. auto.
Qed.

Lemma vw_le w w' x : gle w w' -> held w x -> vw w' x = vw w x.
Proof.
  intros L. unfold vw. induction x as [i l|i ps d IH|i m s ys xs ci nm nc IH|i m s M al IH|i m s q IH|i m s k IH]
    using obj_ind';
    try (cbn [held oid view]; intros (_ & _ & C); pose proof (dz_le _ _ _ L (proj1 C)) as E; unfold dz in E;
         rewrite E, IH by tauto; reflexivity).
  - reflexivity.
  - rewrite held_concat. intros (_ & _ & F). cbn [view]. f_equal. apply map_ext_in. intros p Hp.
    rewrite Forall_forall in *. auto.
Qed.

Lemma vws_le w w' xs : gle w w' -> Forall (held w) xs -> map (vw w') xs = map (vw w) xs.
Proof. intros L F. apply map_ext_in. intros p Hp. rewrite Forall_forall in F. eapply vw_le; eauto. Qed.

(* views, unfolded one level *)
Lemma vw_leaf w i l : vw w (OLeaf i l) = Leaf l. Proof. reflexivity. Qed.
Lemma vw_concat w i ps d : vw w (OConcat i ps d) = Concat (map (vw w) ps) d. Proof. reflexivity. Qed.
Lemma vw_crop w i m s ys xs ci nm nc :
  vw w (OCrop i m s ys xs ci nm nc) = Crop (vw w s) ys xs ci (known (dz w m)) nm nc.
Proof. reflexivity. Qed.
Lemma vw_warp w i m s M al : vw w (OWarp i m s M al) = Warp (vw w s) M (known (dz w m)) al.
Proof. reflexivity. Qed.
Lemma vw_deq w i m s q : vw w (ODequant i m s q) = Dequant (vw w s) q (dz w m). Proof. reflexivity. Qed.
Lemma vw_ov w i m s k : vw w (OOverview i m s k) = Overview (vw w s) k (known (dz w m)). Proof. reflexivity. Qed.

Section Sim.
Variable b : class.
Variable o : oracle.
Variable P : node -> node -> Prop.

Definition entry (w : gworld) (e : nat * obj) : Prop :=
  exists x, gh w (fst e) = Some x /\ oid x = fst e /\ held w x /\ held w (snd e) /\
  klass b (vw w (snd e)) /\ P (vw w x) (vw w (snd e)).
Definition ginv (w : gworld) : Prop := Forall (entry w) (memo (gs w)).

Notation run := (runs gs gle ginv).

Lemma entry_le w w' e : gle w w' -> entry w e -> entry w' e.
Proof.
  intros L (x & A & Ao & B & C & D & E). exists x.
  rewrite (vw_le _ _ _ L B), (vw_le _ _ _ L C).
  assert (Ho : has w (fst e)) by (rewrite <- Ao; destruct x; apply B).
  split; [|split; [exact Ao|split; [|split; [|split; assumption]]]]; try (eapply held_le; eassumption).
  rewrite (proj1 (proj2 L _ Ho)). exact A.
Qed.

Lemma ginv_le w w' : gle w w' -> memo (gs w') = memo (gs w) -> ginv w -> ginv w'.
Proof.
  intros L E I. unfold ginv in *. rewrite E. eapply Forall_impl; [|exact I].
  intros e. now apply entry_le.
Qed.

(** *** Basic programs *)

Lemma g_alloc w (f : nat -> nat -> obj) d : ginv w -> (forall i m, oid (f i m) = i) ->
  run (alloc f d) (fun w' y => exists i m, y = f i m /\ has w' i /\ has w' m /\ gh w' i = Some y /\ dz w' m = d) w.
Proof.
  intros I Hf a s' E. unfold alloc in E. injection E as <- <-.
  set (n := next (gs w)).
  set (w' := GW (fun i => if Nat.eqb i n then Some (f n (S n)) else gh w i)
               (Store (S (S n)) (upd (sizes (gs w)) (S n) d) (memo (gs w)))).
  assert (L : gle w w').
  { split; [cbn; lia|]. intros i Hi. unfold has in Hi. fold n in Hi. cbn. unfold dz, upd. cbn.
    destruct (Nat.eqb_spec i n); [lia|]. destruct (Nat.eqb_spec i (S n)); [lia|]. auto. }
  exists w'. split; [reflexivity|]. split; [exact L|]. split; [eapply ginv_le; eauto|].
  exists n, (S n). split; [reflexivity|]. unfold has, dz. cbn. split; [lia|]. split; [lia|].
  rewrite Nat.eqb_refl. unfold upd. rewrite Nat.eqb_refl. auto.
Qed.

Lemma g_clone w (f : nat -> obj) : ginv w ->
  run (clone f) (fun w' y => exists i, y = f i /\ has w' i /\ gh w' i = Some y) w.
Proof.
  intros I a s' E. unfold clone in E. injection E as <- <-.
  set (n := next (gs w)).
  set (w' := GW (fun i => if Nat.eqb i n then Some (f n) else gh w i)
               (Store (S n) (sizes (gs w)) (memo (gs w)))).
  assert (L : gle w w').
  { split; [cbn; lia|]. intros i Hi. unfold has in Hi. fold n in Hi. cbn. unfold dz. cbn.
    destruct (Nat.eqb_spec i n); [lia|]. auto. }
  exists w'. split; [reflexivity|]. split; [exact L|]. split; [eapply ginv_le; eauto|].
  exists n. split; [reflexivity|]. unfold has. cbn. rewrite Nat.eqb_refl. auto.
Qed.

Lemma g_look {A} (f : node -> A) x w : ginv w -> run (look f x) (fun w' a => a = f (vw w' x)) w.
Proof. intros I a s' E. injection E as <- <-. exists w. auto using gle_refl. Qed.
Lemma g_looks xs w : ginv w -> run (looks xs) (fun w' a => a = map (vw w') xs) w.
Proof. intros I a s' E. injection E as <- <-. exists w. auto using gle_refl. Qed.
Lemma g_dict m w : ginv w -> run (dict m) (fun w' a => a = dz w' m) w.
Proof. intros I a s' E. injection E as <- <-. exists w. auto using gle_refl. Qed.
Lemma g_tryf {A} (f : node -> result A) x w : ginv w -> run (tryf f x) (fun w' a => f (vw w' x) = Ok a) w.
Proof.
  intros I a s' E. unfold tryf in E. destruct (f (view (sizes (gs w)) x)) eqn:Ef; [|discriminate].
  cbn in E. injection E as <- <-. exists w. auto using gle_refl.
Qed.
Lemma g_lift {A} (r : result A) w : ginv w -> run (lift r) (fun _ a => r = Ok a) w.
Proof. intros I. apply runs_lift; auto using gle_refl. Qed.
Lemma g_ret {A} (a : A) (Q : gworld -> A -> Prop) w : ginv w -> Q w a -> run (ret a) Q w.
Proof. intros. apply runs_ret; auto using gle_refl. Qed.
Lemma g_bind {A B} (c : act A) (k : A -> act B) Q R w :
  run c Q w -> (forall w' a, gle w w' -> ginv w' -> Q w' a -> run (k a) R w') -> run (andthen c k) R w.
Proof. apply runs_bind. exact gle_trans. Qed.
Lemma g_raise {A} e (Q : gworld -> A -> Prop) w : run (raise e) Q w.
Proof. apply runs_raise. Qed.
Lemma g_weaken {A} (c : act A) (Q R : gworld -> A -> Prop) w :
  run c Q w -> (forall w' a, gle w w' -> Q w' a -> R w' a) -> run c R w.
Proof. apply runs_weaken. Qed.
Lemma g_mapA {A B} (f : A -> act B) (Pre : gworld -> A -> Prop) (Q : gworld -> A -> B -> Prop) :
  (forall w w' a, gle w w' -> Pre w a -> Pre w' a) ->
  (forall w w' a c, gle w w' -> Q w a c -> Q w' a c) ->
  (forall w a, ginv w -> Pre w a -> run (f a) (fun w' c => Q w' a c) w) ->
  forall l w, ginv w -> Forall (Pre w) l -> run (mapA f l) (fun w' bs => Forall2 (Q w') l bs) w.
Proof. apply runs_mapA; [exact gle_refl|exact gle_trans]. Qed.

(* carry facts to the current world *)
Ltac gup L :=
  repeat match goal with
  | H : held ?w ?x |- _ => match type of L with gle w _ =>
      rewrite <- ?(vw_le _ _ _ L H) in *; apply (held_le _ _ _ L) in H end
  | H : has ?w ?m |- _ => match type of L with gle w _ =>
      rewrite <- ?(dz_le _ _ _ L H) in *; apply (has_le _ _ _ L) in H end
  | H : Forall (held ?w) ?l |- _ => match type of L with gle w _ =>
      rewrite <- ?(vws_le _ _ _ L H) in *;
      apply (Forall_impl (held _) (fun a => held_le _ _ a L)) in H end
  end.
Ltac gadv lem w a H :=
  eapply g_bind; [eapply lem; eauto|]; cbv beta;
  let L := fresh "L" in let I := fresh "I" in intros w a L I H; gup L.

(** *** Constructors *)

Lemma g_crop x sl ci w : ginv w -> held w x ->
  run (h_crop x sl ci) (fun w' y => held w' y /\ held w' x /\ mkCrop (vw w' x) sl ci = Ok (vw w' y) /\
     exists i m ys xs nm nc, y = OCrop i m x ys xs ci nm nc) w.
Proof.
  intros I F. unfold h_crop. gadv @g_tryf w1 n H.
  destruct (mkCrop_shape _ _ _ _ H) as (ys & xs & d & nm & nc & ->).
  eapply g_weaken; [apply g_alloc; [assumption|reflexivity]|]. cbv beta.
  intros w2 y L2 (i & m & -> & Hi & Hm & Hg & Hd). gup L2.
  split; [cbn; auto|]. split; [assumption|]. split; [|eauto 10]. rewrite vw_crop, Hd. exact H.
Qed.

Lemma g_warp x M d al w : ginv w -> held w x ->
  run (h_warp x M d al) (fun w' y => held w' y /\ held w' x /\ vw w' y = Warp (vw w' x) M d al /\
     exists i m, y = OWarp i m x M al /\ dz w' m = Some d) w.
Proof.
  intros I F. unfold h_warp.
  eapply g_weaken; [apply g_alloc; [assumption|reflexivity]|]. cbv beta.
  intros w2 y L2 (i & m & -> & Hi & Hm & Hg & Hd). gup L2.
  split; [cbn; auto|]. split; [assumption|]. split; [|eauto]. rewrite vw_warp, Hd. reflexivity.
Qed.

Lemma g_warp_auto x M al w : ginv w -> held w x ->
  run (h_warp_auto x M al) (fun w' y => held w' y /\ held w' x /\ mkWarp_auto (vw w' x) M al = Ok (vw w' y)) w.
Proof.
  intros I F. unfold h_warp_auto. gadv @g_tryf w1 n H.
  pose proof (mkWarp_auto_meta _ _ _ _ H) as (d & ->).
  eapply g_weaken; [now apply g_warp|]. cbv beta. intros w2 y L2 (A & B & C & _). gup L2.
  rewrite C. auto.
Qed.

Lemma g_dequant x q w : ginv w -> held w x ->
  run (h_dequant x q) (fun w' y => held w' y /\ held w' x /\ vw w' y = mkDequant (vw w' x) q) w.
Proof.
  intros I F. unfold h_dequant. gadv @g_look w1 n H.
  eapply g_weaken; [apply g_alloc; [assumption|reflexivity]|]. cbv beta.
  intros w2 y L2 (i & m & -> & Hi & Hm & Hg & Hd). gup L2.
  split; [cbn; auto|]. split; [assumption|]. rewrite vw_deq, Hd, H. reflexivity.
Qed.

Lemma g_overview x k w : ginv w -> held w x ->
  run (h_overview x k) (fun w' y => held w' y /\ held w' x /\ mkOverview (vw w' x) k = Ok (vw w' y) /\
    exists i m, y = OOverview i m x k) w.
Proof.
  intros I F. unfold h_overview. gadv @g_tryf w1 n H.
  destruct (mkOverview_meta _ _ _ H) as (d & _ & ->).
  eapply g_weaken; [apply g_alloc; [assumption|reflexivity]|]. cbv beta.
  intros w2 y L2 (i & m & -> & Hi & Hm & Hg & Hd). gup L2.
  split; [cbn; auto|]. split; [assumption|]. split; [|eauto]. rewrite vw_ov, Hd. exact H.
Qed.

Lemma g_concat ps w : ginv w -> Forall (held w) ps ->
  run (h_concat ps) (fun w' r => match r with
    | Some c => held w' c /\ Forall (held w') ps /\ mkConcat (map (vw w') ps) = Some (vw w' c)
    | None => Forall (held w') ps /\ mkConcat (map (vw w') ps) = None
    end) w.
Proof.
  intros I F. unfold h_concat. gadv @g_looks w1 ts H. subst ts.
  destruct (mkConcat (map (vw w1) ps)) as [n|] eqn:E; [|now apply g_ret].
  pose proof E as E'. apply mkConcat_spec in E' as (d & -> & _).
  gadv @g_clone w2 y Hy. destruct Hy as (i & -> & Hi & Hg). apply g_ret; [assumption|].
  split; [|split; [assumption|]].
  - apply held_concat. auto.
  - rewrite vw_concat. exact E.
Qed.

Lemma g_leaf t w : ginv w ->
  run (h_leaf t) (fun w' y => held w' y /\ vw w' y = t) w.
Proof.
  intros I. unfold h_leaf. destruct t; try apply g_raise.
  eapply g_weaken; [now apply g_clone|]. cbv beta. intros w1 y L (i & -> & Hi & Hg).
  split; [cbn; auto|reflexivity].
Qed.

Lemma g_padded_crop x ys xs w : ginv w -> held w x ->
  run (h_padded_crop x ys xs) (fun w' y => held w' y /\ held w' x /\ padded_crop_node (vw w' x) ys xs = Ok (vw w' y)) w.
Proof.
  intros I F. unfold h_padded_crop. gadv @g_look w1 d H. destruct d as [sz|]; [|apply g_raise].
  gadv @g_lift w2 p Hp. destruct p as [[dy dx] tf]. gadv g_crop w3 c Hc.
  destruct Hc as (Hc & _ & Hcm & _). destruct tf as [[T d]|].
  - eapply g_weaken; [now apply g_warp|]. cbv beta. intros w4 y L4 (A & B & C & _). gup L4.
    split; [exact A|]. split; [assumption|]. unfold padded_crop_node. rewrite <- H, Hp. cbn [bind].
    rewrite Hcm. cbn [bind]. now rewrite C.
  - apply g_ret; [assumption|]. split; [assumption|]. split; [assumption|].
    unfold padded_crop_node. rewrite <- H, Hp. cbn [bind]. now rewrite Hcm.
Qed.

Lemma g_build (f : obj -> act obj) (F : node -> result node) ps w :
  (forall w a, ginv w -> held w a ->
     run (f a) (fun w' y => held w' y /\ held w' a /\ F (vw w' a) = Ok (vw w' y)) w) ->
  ginv w -> Forall (held w) ps ->
  run (mapA f ps) (fun w' qs => Forall (held w') qs /\ Forall (held w') ps /\
     mapR F (map (vw w') ps) = Ok (map (vw w') qs)) w.
Proof.
  intros Hf I Fp. eapply g_weaken.
  - apply g_mapA with (Pre := held) (Q := fun w a y => held w y /\ held w a /\ F (vw w a) = Ok (vw w y));
      [intros; eapply held_le; eassumption| |exact Hf|exact I|exact Fp].
    intros u u' a y L (A & B & C). rewrite (vw_le _ _ _ L A), (vw_le _ _ _ L B).
    split; [eapply held_le; eassumption|]. split; [eapply held_le; eassumption|exact C].
  - cbv beta. intros w' qs _ H. induction H as [|a y ps qs (A & B & C) H IH]; [auto|].
    apply Forall_cons_iff in Fp as [_ Fp]. destruct (IH Fp) as (D & E & G).
    split; [auto|]. split; [auto|]. cbn [map mapR]. rewrite C. cbn [bind]. rewrite G. reflexivity.
Qed.

Lemma mapR_Ok_map {A B} (f : A -> B) l : mapR (fun a => Ok (f a)) l = Ok (map f l).
Proof. induction l as [|a l IH]; [reflexivity|]. cbn. now rewrite IH. Qed.

Lemma g_push x w : ginv w -> held w x ->
  run (h_push_under x) (fun w' r => held w' x /\ push_under (vw w' x) = Ok (option_map (vw w') r) /\
    match r with Some c => held w' c | None => True end) w.
Proof.
  intros I F. unfold h_push_under.
  assert (Hend : forall (qs : list obj) u, ginv u -> held u x -> Forall (held u) qs -> push_under (vw u x) = Ok (mkConcat (map (vw u) qs)) ->
    run (h_concat qs) (fun w' r => held w' x /\ push_under (vw w' x) = Ok (option_map (vw w') r) /\
      match r with Some c => held w' c | None => True end) u).
  { intros qs u Iu Hx Hq E. eapply g_weaken; [now apply g_concat|]. cbv beta.
    intros u' r L H. gup L. split; [assumption|]. rewrite E. destruct r as [c|].
    - destruct H as (A & B & C). cbn [option_map]. split; [congruence|exact A].
    - destruct H as (B & C). cbn [option_map]. split; [congruence|exact Logic.I]. }
  assert (Hnone : push_under (vw w x) = Ok None -> run (ret None) (fun w' r => held w' x /\
      push_under (vw w' x) = Ok (option_map (vw w') r) /\ match r with Some c => held w' c | None => True end) w).
  { intros E. apply g_ret; auto. }
  destruct x as [i l|i ps d|i m s ys xs ci nm nc|i m s M al|i m s q|i m s k];
    try (apply Hnone; reflexivity);
    (destruct s as [| i0 ps d0 | | | | ]; try (apply Hnone; reflexivity));
    (assert (Fp : Forall (held w) ps) by
      (cbn [held] in F; destruct F as (_ & _ & _ & F); apply (held_concat w i0 ps d0); exact F)).
  - eapply g_bind.
    + apply (g_build _ (fun p => mkCrop p (Some (some_slice ys, some_slice xs)) ci)); [|exact I|exact Fp].
      intros u a Iu Ha. eapply g_weaken; [now apply g_crop|]. cbv beta. intros u' y _ (A & B & C & _). auto.
    + cbv beta. intros w1 qs L1 I1 (A & B & C). apply (held_le _ _ _ L1) in F.
      apply Hend; auto. rewrite vw_crop, vw_concat. cbn [push_under]. now rewrite C.
  - gadv @g_dict w1 d Hd. eapply g_bind.
    + apply (g_build _ (fun p => Ok (Warp p M (known d) al))); [|eassumption|exact Fp].
      intros u a Iu Ha. eapply g_weaken; [now apply g_warp|]. cbv beta. intros u' y _ (A & B & C & _).
      rewrite C. auto.
    + cbv beta. intros w2 qs L2 I2 (A & B & C).
      assert (Hm : has w1 m) by apply F. gup L2.
      apply Hend; auto. rewrite vw_warp, vw_concat. cbn [push_under]. rewrite mapR_Ok_map in C.
      injection C as C. rewrite <- C. subst d. reflexivity.
  - eapply g_bind.
    + apply (g_build _ (fun p => Ok (mkDequant p q))); [|exact I|exact Fp].
      intros u a Iu Ha. eapply g_weaken; [now apply g_dequant|]. cbv beta. intros u' y _ (A & B & C). rewrite C. auto.
    + cbv beta. intros w1 qs L1 I1 (A & B & C). apply (held_le _ _ _ L1) in F.
      apply Hend; auto. rewrite vw_deq, vw_concat. cbn [push_under]. rewrite mapR_Ok_map in C.
      injection C as C. now rewrite <- C.
  - eapply g_bind.
    + apply (g_build _ (fun p => mkOverview p k)); [|exact I|exact Fp].
      intros u a Iu Ha. eapply g_weaken; [now apply g_overview|]. cbv beta. intros u' y _ (A & B & C & _). auto.
    + cbv beta. intros w1 qs L1 I1 (A & B & C). apply (held_le _ _ _ L1) in F.
      apply Hend; auto. rewrite vw_ov, vw_concat. cbn [push_under]. now rewrite C.
Qed.

Lemma first_of_spec ids i : In i ids -> nth_error ids (first_of ids i) = Some i.
Proof.
  induction ids as [|j ids IH]; [contradiction|]. cbn [first_of In]. destruct (Nat.eqb_spec j i) as [->|N]; [reflexivity|].
  intros [E|H]; [congruence|]. cbn. auto.
Qed.

Lemma same_object_spec w ps p : Forall (held w) ps ->
  nth_error (map (vw w) ps) (same_object (map oid ps) p) = nth_error (map (vw w) ps) p.
Proof.
  intros F. unfold same_object. destruct (nth_error (map oid ps) p) as [i|] eqn:E; [|reflexivity].
  pose proof (first_of_spec _ _ (nth_error_In _ _ E)) as H.
  rewrite nth_error_map in E, H. rewrite !nth_error_map.
  destruct (nth_error ps p) as [a|] eqn:Ea; [|discriminate]. destruct (nth_error ps (first_of (map oid ps) i)) as [c|] eqn:Ec; [|discriminate].
  cbn in *. injection E as E. injection H as H. rewrite Forall_forall in F.
  rewrite (held_same w a c); [reflexivity| | |congruence]; apply F; eapply nth_error_In; eassumption.
Qed.

(* component [y] serves a run of bands *)
Definition comp_ok (w : gworld) (ps : list obj) (seg : nat * list Z) (y : obj) : Prop :=
  held w y /\ Forall (held w) ps /\
  (Forall (fun p => klass b (vw w p)) ps -> klass b (vw w y)) /\
  exists q n, nth_error (map (vw w) ps) (fst seg) = Some q /\ num_channels q = Some n /\
    (wf q -> in_range n (snd seg) -> takes q (snd seg) (vw w y)) /\
    (snd seg <> [] -> closed_take q (vw w y)).

Lemma comp_ok_le w w' ps seg y : gle w w' -> comp_ok w ps seg y -> comp_ok w' ps seg y.
Proof.
  intros L (A & B & C & D). unfold comp_ok. rewrite (vws_le _ _ _ L B), (vw_le _ _ _ L A).
  split; [eapply held_le; eassumption|].
  split; [eapply Forall_impl; [|exact B]; intros; eapply held_le; eassumption|].
  split; [|exact D]. intros K. apply C. rewrite Forall_forall in *. intros p Hp.
  rewrite <- (vw_le _ _ _ L (B p Hp)). auto.
Qed.

Lemma g_take x : forall idxs w, ginv w -> held w x ->
  run (h_take x idxs) (fun w' y => held w' y /\ held w' x /\ (klass b (vw w' x) -> klass b (vw w' y)) /\
     r_take (vw w' x) idxs (vw w' y)) w.
Proof.
  induction x as [i l|i ps d IH|i m s ys xs ci nm nc IH|i m s M al IH|i m s q IH|i m s k IH] using obj_ind';
    intros idxs w Iw F;
    try (eapply g_weaken; [apply g_crop; assumption|]; cbv beta; intros w1 y L1 (Hy & Hx & Hc & _);
         split; [exact Hy|split; [exact Hx|split; [intros K; eapply klass_mkCrop; eassumption|]]];
         split; [intros n Hw Hn Hr; eapply takes_crop; eassumption|intros Hne Q _ _ H3 HQ; eapply H3; eassumption]).
  cbn [h_take]. gadv @g_look w1 nm Hn. gadv @g_looks w2 ts Ht.
  assert (Fp : Forall (held w2) ps) by now apply held_concat in F.
  destruct nm as [nm|]; [|apply g_raise].
  destruct (known_all (map num_channels ts)) as [szs|] eqn:Ek; [|apply g_raise].
  gadv @g_lift w3 wh Hwh.
  eapply g_bind.
  - eapply g_mapA with (Pre := fun w (_ : nat * list Z) => Forall (held w) ps)
                       (Q := fun w seg y => comp_ok w ps seg y).
    + intros u u' _ Lu Hf. eapply Forall_impl; [|exact Hf]. intros a. now apply held_le.
    + intros u u' seg y Lu. now apply comp_ok_le.
    + intros u seg Iu Fu. unfold h_component. gadv @g_lift u1 pt Hpt.
      assert (nth_error ps (fst seg) = Some (fst pt) /\ snd pt = h_take (fst pt)) as [Hin Hsnd].
      { unfold nth_result in Hpt. destruct (nth_error _ _) as [pt'|] eqn:En; [|discriminate].
        injection Hpt as ->. rewrite nth_error_map in En. destruct (nth_error ps (fst seg)) as [p|]; [|discriminate].
        cbn in En. injection En as <-. auto. }
      assert (Hip : In (fst pt) ps) by (eapply nth_error_In; exact Hin).
      assert (Fx : held u1 (fst pt)).
      { rewrite Forall_forall in Fu. auto. }
      gadv @g_look u2 n Hnn. destruct n as [n|]; [|apply g_raise].
      assert (Hq : forall u, nth_error (map (vw u) ps) (fst seg) = Some (vw u (fst pt))).
      { intros v. rewrite nth_error_map, Hin. reflexivity. }
      destruct (list_Z_eqb _ _) eqn:El.
      * apply g_ret; [assumption|]. split; [assumption|]. split; [assumption|]. split.
        { intros K. rewrite Forall_forall in K. auto. }
        exists (vw u2 (fst pt)), n. split; [apply Hq|]. split; [congruence|]. split; [|intros _ Q _ _ _ HQ; exact HQ].
        intros Hw Hr. apply list_Z_eqb_eq in El. rewrite El. apply takes_all; [exact Hw|congruence].
      * rewrite Hsnd. rewrite Forall_forall in IH. eapply g_weaken; [apply IH; auto|]. cbv beta.
        intros u3 y Lu3 (Hy & Hx & Hk & Hta). gup Lu3. split; [exact Hy|]. split; [assumption|]. split.
        { intros K. rewrite Forall_forall in K. auto. }
        exists (vw u3 (fst pt)), n. split; [apply Hq|]. split; [congruence|].
        split; [intros Hw Hr; eapply (proj1 Hta); eauto|apply Hta].
    + eassumption.
    + apply Forall_forall. auto.
  - cbv beta. intros w4 comps L4 I4 Hc. gup L4.
    assert (Hheld : Forall (held w4) comps).
    { clear -Hc. induction Hc as [|a y l ys (H & _) F IHF]; constructor; auto. }
    gadv g_concat w5 c Hcc. assert (Hc5 : Forall2 (comp_ok w5 ps) (segments
              (map (fun pi => (same_object (map oid ps) (fst pi), snd pi)) wh)) comps).
    { eapply Forall2_imp; [|exact Hc]. intros a y. now apply comp_ok_le. }
    destruct c as [c|]; [|apply g_raise]. destruct Hcc as (Hcc & _ & Emk).
    apply g_ret; [assumption|]. split; [exact Hcc|]. split; [assumption|]. split.
    + intros K. rewrite vw_concat in K. apply klass_concat in K. rewrite Forall_map in K.
      eapply klass_mkConcat; [|exact Emk]. apply Forall_map. clear -Hc5 K.
      induction Hc5 as [|a y l ys (_ & _ & H & _) F IHF]; constructor; auto.
    + rewrite vw_concat. rewrite vw_concat in Hn. cbn [names] in Hn. subst ts. apply mapR_Forall2 in Hwh. split.
      2:{ set (wh' := map _ wh) in *. intros Hne Q H1 H2 H3 HQ. apply H1 in HQ. eapply H2; [| |exact Emk].
          - intros E. apply map_eq_nil in E. subst comps. inversion Hc5 as [E0|]. pose proof (segments_flat wh') as Hfl.
            rewrite <- E0 in Hfl. cbn in Hfl. apply F2_len in Hwh. destruct wh; [|discriminate].
            destruct idxs; [congruence|discriminate].
          - apply Forall_map. pose proof (segments_nonempty wh') as Hsn. rewrite Forall_forall in HQ.
            clear -Hc5 Hsn HQ H1 H2 H3. induction Hc5 as [|a y l ys (_ & _ & _ & q & n & Hq & _ & _ & Hcl) F IHF]; constructor.
            + apply Forall_cons_iff in Hsn as [Ha _]. apply (Hcl Ha Q H1 H2 H3). apply HQ. eapply nth_error_In; exact Hq.
            + apply IHF. now apply Forall_cons_iff in Hsn. }
      intros mm Hw Hm Hr.
      eapply assemble; [exact Hw|exact Hm|exact Hr|symmetry; exact Hn|exact Ek|exact Hwh| | |exact Emk].
      { instantiate (1 := map (fun pi => (same_object (map oid ps) (fst pi), snd pi)) wh).
        clear -Fp. induction wh as [|[p j] wh IH]; constructor; [|exact IH]. cbn [fst snd].
        split; [reflexivity|]. symmetry. now apply same_object_spec. }
      set (wh' := map _ wh) in *.
      assert (Hvalid : forall p j, In (p, j) wh' -> exists q n, nth_error (map (vw w5) ps) p = Some q /\
            num_channels q = Some n /\ (0 <= j < n)%Z).
      { intros p j Hin. unfold wh' in Hin. apply in_map_iff in Hin as ([p0 j0] & E & Hin). cbn [fst snd] in E.
        injection E as <- <-. rewrite (same_object_spec w5 ps p0 Fp).
        clear -Hwh Ek Hin. induction Hwh as [|i pj idxs wh Hi G IH]; [contradiction|].
        destruct Hin as [->|Hin]; [|auto].
        destruct (unravel_spec (fun _ _ => True) _ _ _ _ _ _ Ek Hi) as (q & n & _ & Hn & Hq & Hj & _).
        rewrite Nat.sub_0_r in Hn. eauto. }
      assert (Hall : forall seg, In seg (segments wh') -> forall j, In j (snd seg) -> In (fst seg, j) wh').
      { intros seg Hseg j Hj. rewrite <- (segments_flat wh'). apply in_flat_map.
        exists seg. split; [exact Hseg|]. now apply in_map. }
      apply wf_concat in Hw as (Hwps & _ & _). rewrite Forall_forall in Hwps.
      clear -Hc5 Hvalid Hall Hwps.
      assert (G : forall segs comps, Forall2 (comp_ok w5 ps) segs comps -> (forall seg, In seg segs -> In seg (segments wh')) ->
                  Forall2 (serves (map (vw w5) ps)) segs (map (vw w5) comps)).
      { induction 1 as [|seg y segs ys (_ & _ & _ & q & n & Hq & Hn & Ht & _) F IH]; intros Hs; cbn; constructor.
        - exists q, n. split; [exact Hq|]. split; [exact Hn|].
          assert (Hrange : in_range n (snd seg)).
          { apply Forall_forall. intros j Hj. destruct (Hvalid (fst seg) j) as (q' & n' & Hq' & Hn' & Hjj).
            - apply Hall; [|exact Hj]. apply Hs. now left.
            - assert (q' = q) by congruence. subst. congruence. }
          split; [exact Hrange|]. apply Ht; [|exact Hrange]. apply Hwps. eapply nth_error_In; exact Hq.
        - apply IH. intros s Hin. apply Hs. now right. }
      apply G; auto.
Qed.

(** *** Rewrite rules *)

Lemma g_warp_after_crop s M ys xs ci cd w : ginv w -> held w s ->
  run (h_warp_after_crop s M ys xs ci cd) (fun w' r => held w' s /\
     match r with
     | Some (c, T) => held w' c /\ warp_after_crop (vw w' s) M ys xs ci cd = Ok (Some (vw w' c, T))
     | None => warp_after_crop (vw w' s) M ys xs ci cd = Ok None
     end) w.
Proof.
  intros I F. unfold h_warp_after_crop. gadv @g_tryf w1 r H.
  destruct r as [[c T]|]; [|apply g_ret; auto].
  destruct (warp_after_crop_shape _ _ _ _ _ _ _ _ H) as (sl & Hs).
  destruct (mkCrop_shape _ _ _ _ Hs) as (ys' & xs' & d & nm & nc & ->).
  eapply g_bind; [apply g_alloc; [assumption|reflexivity]|]. cbv beta.
  intros w2 y L2 I2 (i & m & -> & Hi & Hm & Hg & Hd). gup L2. apply g_ret; [assumption|].
  split; [assumption|]. split; [cbn; auto|]. rewrite vw_crop, Hd. exact H.
Qed.

Lemma g_fuse_crops s ys1 xs1 ci1 ys xs ci w : ginv w -> held w s ->
  run (h_fuse_crops s ys1 xs1 ci1 ys xs ci) (fun w' y => held w' y /\ held w' s /\
     fuse_crops (vw w' s) ys1 xs1 ci1 ys xs ci = Ok (vw w' y) /\
     exists i m ys' xs' ci' nm nc, y = OCrop i m s ys' xs' ci' nm nc) w.
Proof.
  intros I F. unfold h_fuse_crops. gadv @g_lift w1 nci H. eapply g_weaken; [now apply g_crop|]. cbv beta.
  intros w2 y L2 (A & B & C & i & m & ys' & xs' & nm & nc & ->). split; [exact A|]. split; [exact B|].
  split; [|eauto 10]. unfold fuse_crops. rewrite H. exact C.
Qed.

Lemma g_crop_after_overview s ys xs ci k w : ginv w -> held w s ->
  run (h_crop_after_overview s ys xs ci k) (fun w' y => held w' y /\ held w' s /\
     crop_after_overview (vw w' s) ys xs ci k = Ok (vw w' y)) w.
Proof.
  intros I F. unfold h_crop_after_overview. gadv g_overview w1 v Hv. destruct Hv as (Hv & _ & Ev & _).
  destruct (overview_crop_axis k xs) as [qx ox] eqn:Ex. destruct (overview_crop_axis k ys) as [qy oy] eqn:Ey.
  gadv g_crop w2 c Hc. destruct Hc as (Hc & _ & Ec & _). cbv zeta.
  assert (E : forall r, (if is_identity (aff_translate ox oy) then Ok (vw w2 c)
        else mkWarp_auto (vw w2 c) (aff_translate ox oy) default_algo) = r ->
        crop_after_overview (vw w2 s) ys xs ci k = r).
  { intros r <-. unfold crop_after_overview. rewrite Ev. cbn [bind]. rewrite Ex, Ey, Ec. reflexivity. }
  destruct (is_identity _).
  - apply g_ret; auto.
  - eapply g_weaken; [now apply g_warp_auto|]. cbv beta. intros w3 y L3 (A & B & C). gup L3. auto.
Qed.

Lemma g_warp_after_overview s B k w : ginv w -> held w s ->
  run (h_warp_after_overview s B k) (fun w' y => held w' y /\ held w' s /\
     warp_after_overview_node (vw w' s) B k = Ok (vw w' y)) w.
Proof.
  intros I F. unfold h_warp_after_overview. gadv @g_lift w0 C HC. gadv g_overview w1 v Hv.
  destruct Hv as (Hv & _ & Ev & _).
  eapply g_weaken; [now apply g_warp_auto|]. cbv beta. intros w3 y L3 (A & A' & E). gup L3.
  split; [exact A|]. split; [assumption|]. unfold warp_after_overview_node. rewrite HC. cbn [bind].
  rewrite Ev. exact E.
Qed.

Lemma g_fresh {A} (c : act A) (Q : gworld -> A -> Prop) w : ginv w ->
  (forall u, ginv u -> gle w u -> run c Q u) ->
  (forall u u' a, gle u u' -> Q u a -> Q u' a) ->
  run (fresh_context c) Q w.
Proof.
  intros Iw Hc HQ a s' E. unfold fresh_context in E.
  set (u := GW (gh w) (Store (next (gs w)) (sizes (gs w)) [])).
  change (Store (next (gs w)) (sizes (gs w)) []) with (gs u) in E.
  destruct (c (gs u)) as [[a' s1]|] eqn:Ec; [|discriminate]. injection E as <- <-.
  destruct (Hc u (Forall_nil _) ltac:(split; auto) a' s1 Ec) as (u' & E' & L' & I' & Q').
  subst s1. exists (GW (gh u') (Store (next (gs u')) (sizes (gs u')) (memo (gs w)))).
  assert (L : gle w (GW (gh u') (Store (next (gs u')) (sizes (gs u')) (memo (gs w))))) by exact L'.
  split; [reflexivity|]. split; [exact L|]. split; [eapply ginv_le; eauto|]. eapply HQ; [|exact Q']. split; auto.
Qed.

(** *** optimize() *)

Section Opt.
Variable opt : obj -> act obj.

(* what a call of optimize() gives *)
Definition outcome (R : node -> Prop) (w : gworld) (y : obj) : Prop :=
  held w y /\ klass b (vw w y) /\ R (vw w y).
Hypothesis Hopt : forall x w, ginv w -> held w x -> klass b (vw w x) ->
  run (opt x) (fun w' y => held w' x /\ outcome (P (vw w' x)) w' y) w.

Lemma g_opt_sub x w : ginv w -> held w x -> klass b (vw w x) ->
  run (h_opt_sub opt x) (fun w' y => held w' x /\ outcome (r_sub P (vw w' x)) w' y) w.
Proof.
  intros I F K. unfold h_opt_sub.
  destruct x as [i l|i ps d|i m s ys xs ci nm nc|i m s M al|i m s q|i m s k];
    try apply g_raise;
    (assert (Fs : held w s) by apply F); (assert (Hm : has w m) by apply F);
    [rewrite vw_crop in K; apply klass_crop in K|rewrite vw_warp in K; apply klass_warp in K as [Kw K]
    |rewrite vw_deq in K; apply klass_deq in K as [Kb K]|rewrite vw_ov in K; apply klass_ov in K as [Kb K]];
    (eapply g_bind; [apply Hopt; assumption|]; cbv beta; intros w1 s' L1 I1 (_ & Fs' & Ks' & Ps'); gup L1);
    (eapply g_weaken; [now apply g_clone|]; cbv beta; intros w2 y L2 (j & -> & Hj & Hg); gup L2;
     split; [assumption|]; split; [cbn; auto|]).
  - rewrite !vw_crop. split; [now apply klass_crop|]. cbn [r_sub]. eauto.
  - rewrite !vw_warp. split; [now apply klass_warp|]. cbn [r_sub]. eauto.
  - rewrite !vw_deq. split; [now apply klass_deq|]. cbn [r_sub]. eauto.
  - rewrite !vw_ov. split; [now apply klass_ov|]. cbn [r_sub]. eauto.
Qed.

Lemma g_push_tail x w : ginv w -> held w x -> klass b (vw w x) ->
  run (h_push_tail opt x) (fun w' y => held w' x /\ outcome (r_push P (vw w' x)) w' y) w.
Proof.
  intros I F K. unfold h_push_tail. gadv @g_lift w1 sd Hsd.
  assert (Hself : forall sd', subdata (vw w1 x) = Ok sd' -> (match sd' with Some (Concat _ _) => False | _ => True end) ->
    run (ret x) (fun w' y => held w' x /\ outcome (r_push P (vw w' x)) w' y) w1).
  { intros sd' E Hc. apply g_ret; [assumption|]. split; [assumption|]. split; [assumption|]. split; [assumption|].
    exists sd'. split; [exact E|]. destruct sd' as [[]|]; tauto. }
  assert (Esd : subdata (vw w1 x) = Ok (option_map (vw w1) sd)).
  { destruct x; cbn in Hsd; try discriminate; injection Hsd as <-; reflexivity. }
  destruct sd as [s|]; [|eapply Hself; [exact Esd|exact Logic.I]].
  destruct s as [| i0 ps d0 | | | | ]; try (eapply Hself; [exact Esd|exact Logic.I]).
  clear Hself. cbn [option_map] in Esd.
  assert (Hsub : exists d1 ps1, subdata (vw w1 x) = Ok (Some (Concat ps1 d1))) by (rewrite vw_concat in Esd; eauto).
  gadv g_push w2 p Hp. destruct Hsub as (d1 & ps1 & Hsub). destruct Hp as (_ & Hp & Hpp).
  destruct p as [p|]; cbn [option_map] in Hp.
  - assert (Kp : klass b (vw w2 p)) by (eapply klass_push; eassumption).
    eapply g_weaken; [apply Hopt; assumption|]. cbv beta. intros w3 y L3 (Hp3 & A & B & C). gup L3.
    split; [assumption|]. split; [exact A|]. split; [exact B|].
    exists (Some (Concat ps1 d1)). split; [exact Hsub|]. exists (Some (vw w3 p)). auto.
  - apply g_ret; [assumption|]. split; [assumption|]. split; [assumption|]. split; [assumption|].
    exists (Some (Concat ps1 d1)). split; [exact Hsub|]. exists None. auto.
Qed.

Lemma g_split s M d al w : b <> NoWarps -> ginv w -> held w s -> klass b (vw w s) ->
  run (h_split o opt s M d al) (fun w' r => held w' s /\ r_split o P (vw w' s) M d al (option_map (vw w') r) /\
    match r with Some n => held w' n /\ klass b (vw w' n) | None => True end) w.
Proof.
  intros Kw I F K. unfold h_split. gadv @g_tryf w1 no Hno.
  assert (Hn0 : forall u r, held u s -> num_overviews (vw u s) = Ok no ->
     (match no with
      | None => r = None
      | Some n => if (n =? 0)%Z then r = None else
        exists lv, split_levels o M = Ok lv /\
        match lv with
        | None => r = None
        | Some poss =>
          let k := Z.min n poss in
          if (k =? 0)%Z then r = None else
          exists R ov, split_residual M k = Ok R /\ mkOverview (vw u s) k = Ok ov /\
          if is_identity R then
            if opt_size_eqb (dsize ov) (Some d) then r = Some ov
            else exists c n, padded_crop_node ov (0, snd d)%Z (0, fst d)%Z = Ok c /\ P c n /\ r = Some n
          else r = Some (Warp ov R d (drop_backend al))
        end
      end) -> r_split o P (vw u s) M d al r).
  { intros u r _ E H. exists no. split; [exact E|exact H]. }
  assert (Hret : forall u, ginv u -> held u s -> r_split o P (vw u s) M d al None ->
     run (ret None) (fun w' r => held w' s /\ r_split o P (vw w' s) M d al (option_map (vw w') r) /\
       match r with Some n => held w' n /\ klass b (vw w' n) | None => True end) u).
  { intros u Iu Hu Hr. apply g_ret; [assumption|]. auto. }
  destruct no as [n|]; [|apply Hret; auto].
  destruct (n =? 0)%Z eqn:En; [apply Hret; auto|]. gadv @g_lift w2 lv Hlv.
  destruct lv as [poss|]; [|apply Hret; auto; apply Hn0; auto; exists None; auto]. cbv zeta.
  destruct (Z.min n poss =? 0)%Z eqn:Ez.
  { apply Hret; auto. apply Hn0; auto. exists (Some poss). split; [exact Hlv|]. cbv zeta. now rewrite Ez. }
  (* no overview can appear when there are none *)
  assert (Hb : b = NoDequants).
  { destruct b; [|reflexivity|congruence]. exfalso. destruct (ov_less_num _ _ K Hno) as [H|H]; [discriminate|].
    injection H as ->. discriminate En. }
  gadv @g_lift w3 R HR. gadv g_overview w4 v Hv. destruct Hv as (Hv & _ & Ev & _).
  assert (Kv : klass b (vw w4 v)) by (eapply klass_mkOverview; eassumption).
  assert (Hfin : forall u r, held u s -> vw u s = vw w4 s ->
     (if is_identity R then
            if opt_size_eqb (dsize (vw w4 v)) (Some d) then r = Some (vw w4 v)
            else exists c n, padded_crop_node (vw w4 v) (0, snd d)%Z (0, fst d)%Z = Ok c /\ P c n /\ r = Some n
          else r = Some (Warp (vw w4 v) R d (drop_backend al))) -> r_split o P (vw u s) M d al r).
  { intros u r Hu E H. apply Hn0; [exact Hu|now rewrite E|]. exists (Some poss). split; [exact Hlv|]. cbv zeta.
    rewrite Ez. exists R, (vw w4 v). split; [exact HR|]. split; [now rewrite E|exact H]. }
  destruct (is_identity R) eqn:Eid.
  - eapply g_bind; [apply (g_look dsize v); assumption|]. cbv beta. intros w5 od L5 I5 Hod.
    rewrite (vw_le _ _ _ L5 Hv) in Hod.
    destruct (opt_size_eqb od (Some d)) eqn:Eo.
    + apply g_ret; [assumption|]. split; [eapply held_le; eassumption|]. split.
      * cbn [option_map]. apply Hfin; [eapply held_le; eassumption|now apply vw_le|]. rewrite <- Hod, Eo.
        now rewrite (vw_le _ _ _ L5 Hv).
      * split; [eapply held_le; eassumption|]. now rewrite (vw_le _ _ _ L5 Hv).
    + assert (Hv5 : held w5 v) by (eapply held_le; eassumption).
      assert (Hs5 : held w5 s) by (eapply held_le; eassumption).
      pose proof (vw_le _ _ _ L5 Hv) as Ev5. pose proof (vw_le _ _ _ L5 F) as Es5.
      eapply g_bind; [apply (g_padded_crop v); assumption|]. cbv beta. intros w6 c L6 I6 (Hc & Hv6 & Ec).
      pose proof (held_le _ _ _ L6 Hs5) as Hs6. pose proof (vw_le _ _ _ L6 Hs5) as Es6.
      pose proof (vw_le _ _ _ L6 Hv5) as Ev6.
      assert (Kc : klass b (vw w6 c)). { eapply klass_padded; [exact Kw| |exact Ec]. rewrite Ev6, Ev5. exact Kv. }
      eapply g_bind.
      * apply g_fresh with (Q := fun w' y => held w' c /\ outcome (P (vw w' c)) w' y); [assumption| |].
        -- intros u Iu Lu. apply Hopt; [exact Iu|eapply held_le; eassumption|]. now rewrite (vw_le _ _ _ Lu Hc).
        -- intros u u' a Lu (A & B & C & D). unfold outcome. rewrite (vw_le _ _ _ Lu A), (vw_le _ _ _ Lu B).
           split; [eapply held_le; eassumption|]. split; [eapply held_le; eassumption|]. auto.
      * cbv beta. intros w7 y L7 I7 (A & B & C & D). apply g_ret; [assumption|].
        pose proof (vw_le _ _ _ L7 Hc) as Ec7. pose proof (vw_le _ _ _ L7 Hs6) as Es7.
        split; [eapply held_le; eassumption|]. split; [|auto]. cbn [option_map].
        apply Hfin; [eapply held_le; eassumption|congruence|]. rewrite <- Hod, Eo.
        exists (vw w6 c), (vw w7 y). split; [congruence|]. split; [congruence|reflexivity].
  - eapply g_bind; [apply (g_warp v); assumption|]. cbv beta. intros w5 y L5 I5 (Hy & Hv5 & Ey & _).
    pose proof (vw_le _ _ _ L5 Hv) as Ev5. pose proof (vw_le _ _ _ L5 F) as Es5.
    apply g_ret; [assumption|]. split; [eapply held_le; eassumption|]. split.
    + cbn [option_map]. apply Hfin; [eapply held_le; eassumption|exact Es5|]. congruence.
    + split; [exact Hy|]. rewrite Ey. apply klass_warp. split; [exact Kw|]. now rewrite Ev5.
Qed.

Definition lview (w : gworld) (l : olayer) : layer :=
  match l with
  | ODeq _ q => LDeq q
  | OCr m ys xs ci nm nc => LCrop ys xs ci (known (dz w m)) nm nc
  end.

Lemma lookahead_view w n : forall x,
  match h_lookahead n x with
  | Some (chain, (os, k)) =>
      (exists od, lookahead n (vw w x) = Some (map (lview w) chain, (vw w os, k, od))) /\
      (held w x -> held w os /\ Forall (fun l => has w (layer_dict l)) chain) /\
      (dq_free (vw w x) -> dq_free (vw w os) /\ Forall (fun l => is_ocr l = true) chain)
  | None => lookahead n (vw w x) = None
  end.
Proof.
  induction n as [|n IH]; intros x; [reflexivity|]. cbn [h_lookahead].
  destruct x as [i l|i ps d|i m s ys xs ci nm nc|i m s M al|i m s q|i m s k]; try reflexivity.
  - specialize (IH s). rewrite vw_crop. cbn [lookahead]. destruct (h_lookahead n s) as [[c [os k]]|].
    + destruct IH as ((od & E) & H1 & H2). rewrite E. split; [exists od; reflexivity|]. split.
      * intros H. destruct (H1 ltac:(apply H)) as [A B]. split; [exact A|]. constructor; [apply H|exact B].
      * intros H. destruct (H2 H) as [A B]. split; [exact A|]. constructor; [reflexivity|exact B].
    + now rewrite IH.
  - specialize (IH s). rewrite vw_deq. cbn [lookahead]. destruct (h_lookahead n s) as [[c [os k]]|].
    + destruct IH as ((od & E) & H1 & H2). rewrite E. split; [exists od; reflexivity|]. split.
      * intros H. destruct (H1 ltac:(apply H)) as [A B]. split; [exact A|]. constructor; [apply H|exact B].
      * intros [].
    + now rewrite IH.
  - split; [eexists; reflexivity|]. split.
    + intros H. split; [apply H|constructor].
    + intros H. split; [exact H|constructor].
Qed.

Lemma g_absorb i m s M al w : b <> NoWarps -> ginv w -> held w (OWarp i m s M al) -> klass b (vw w s) ->
  run (h_absorb o (OWarp i m s M al) m s M al)
      (fun w' y => held w' s /\ has w' m /\
         outcome (fun n => absorb o (vw w' s) M (known (dz w' m)) al = Ok n) w' y) w.
Proof.
  intros Kw I F K. assert (Fs : held w s) by apply F. assert (Hm : has w m) by apply F.
  assert (Hself : absorb o (vw w s) M (known (dz w m)) al = Ok (Warp (vw w s) M (known (dz w m)) al) ->
     run (ret (OWarp i m s M al)) (fun w' y => held w' s /\ has w' m /\
         outcome (fun n => absorb o (vw w' s) M (known (dz w' m)) al = Ok n) w' y) w).
  { intros E. apply g_ret; [assumption|]. split; [assumption|]. split; [assumption|]. split; [exact F|].
    rewrite vw_warp. split; [now apply klass_warp|exact E]. }
  unfold h_absorb. destruct (negb (absorbs o M)) eqn:Ea.
  { apply Hself. unfold absorb. now rewrite Ea. }
  pose proof (lookahead_view w 4 s) as HL.
  destruct (h_lookahead 4 s) as [[chain [os k]]|].
  2:{ apply Hself. unfold absorb. now rewrite Ea, HL. }
  destruct HL as ((od & El) & H1 & H2). destruct (H1 Fs) as [Fos Fch]. clear H1.
  assert (Eb : b = NoOverviews \/ b = NoDequants) by (destruct b; auto; congruence).
  destruct Eb as [Eb|Eb].
  { assert (K' : ov_less (vw w s)) by (revert K; rewrite Eb; auto).
    rewrite (lookahead_ov_less 4 _ K') in El; discriminate. }
  assert (K' : dq_free (vw w s)) by (revert K; rewrite Eb; auto).
  destruct (H2 K') as [Kos Hcr]. clear H2.
  assert (Efil : filter is_lcrop (map (lview w) chain) = map (lview w) chain /\ filter is_ocr chain = chain).
  { clear -Hcr. induction Hcr as [|l chain H F [IH1 IH2]]; [auto|]. cbn. rewrite H, IH1, IH2.
    destruct l; [discriminate|]. auto. }
  destruct Efil as [Efl Efo]. rewrite Efo.
  assert (Eab : forall n, absorb o (vw w s) M (known (dz w m)) al = n <->
    (if (1 <? List.length chain)%nat then Ok (Warp (vw w s) M (known (dz w m)) al) else
      '(head, tf1) <-
        match rev (map (lview w) chain) with
        | [] => Ok (vw w os, overview_tf k)
        | LCrop ys xs ci cd _ _ :: above =>
            r <- warp_after_crop (vw w os) (overview_tf k) ys xs ci cd ;;
            match r with
            | None => Err KeyError
            | Some (c, T) => Ok (fold_right (relayer (dsize c)) c (rev above), T)
            end
        | LDeq _ :: _ =>
            nd <- meta_dsize (vw w os) ;;
            Ok (fold_right (relayer nd) (vw w os) (map (lview w) chain), overview_tf k)
        end ;;
      Ok (Warp head (aff_mul M tf1) (known (dz w m)) (drop_backend al))) = n).
  { intros n. unfold absorb. rewrite Ea, El, Efl, map_length. reflexivity. }
  destruct (1 <? List.length chain)%nat eqn:En; [apply Hself; now apply Eab|].
  assert (Hcase : chain = [] \/ exists cm ys xs ci nm nc, chain = [OCr cm ys xs ci nm nc]).
  { apply Nat.ltb_ge in En. destruct chain as [|l [|l' r]]; [auto| |cbn in En; lia].
    apply Forall_cons_iff in Hcr as [Hl _]. destruct l; [discriminate|]. right. eauto 10. }
  destruct Hcase as [-> | (cm & ys & xs & ci & nm & nc & ->)]; cbn [rev app map] in Eab |- *.
  - eapply g_bind; [apply (g_ret _ (fun w' r => r = (os, overview_tf k) /\ w' = w)); auto|]. cbv beta.
    intros w1 r L1 I1 [-> ->]. clear L1. cbn [fst snd].
    gadv @g_dict w2 d Hd. eapply g_weaken; [now apply g_warp|]. cbv beta. intros w3 y L3 (A & _ & C & _). gup L3.
    split; [assumption|]. split; [assumption|]. split; [exact A|]. rewrite C. split; [apply klass_warp; split; [exact Kw|]; rewrite Eb; exact Kos|].
    apply Eab. cbn [bind]. now rewrite Hd.
  - apply Forall_cons_iff in Fch as [Fcm _]. cbn [layer_dict] in Fcm. cbn [lview] in Eab.
    eapply g_bind with (Q := fun w' r => held w' s /\ has w' m /\ held w' (fst r) /\ klass b (vw w' (fst r)) /\
        absorb o (vw w' s) M (known (dz w' m)) al =
          Ok (Warp (vw w' (fst r)) (aff_mul M (snd r)) (known (dz w' m)) (drop_backend al))).
    + gadv @g_dict w1 cd Hcd. gadv g_warp_after_crop w2 r Hr. destruct Hr as [_ Hr].
      destruct r as [[c T]|]; [|apply g_raise]. destruct Hr as [Hc Hwac].
      gadv @g_look w3 nd Hnd. cbn [rev mapA h_rebuild].
      eapply g_bind; [apply (g_ret [] (fun w' r => w' = w3)); auto|]. cbv beta.
      intros w4 u _ I4 ->. eapply g_bind; [apply (g_ret c (fun w' r => w' = w3 /\ r = c)); auto|]. cbv beta.
      intros w5 h _ I5 [-> ->]. apply g_ret; [assumption|]. cbn [fst snd].
      split; [assumption|]. split; [assumption|]. split; [assumption|]. split.
      * rewrite Eb. eapply (klass_warp_after_crop NoDequants); [exact Kos|exact Hwac].
      * apply Eab. subst cd. rewrite Hwac. reflexivity.
    + cbv beta. intros w1 [h T] L1 I1 (Hs1 & Hm1 & Hh & Kh & E). cbn [fst snd] in *.
      clear F Fs Hm Fos Fcm Eab Hself El K Kos. gadv @g_dict w2 d Hd. eapply g_weaken; [now apply g_warp|]. cbv beta.
      intros w3 y L3 (A & _ & C & _). gup L3. split; [assumption|]. split; [assumption|]. split; [exact A|].
      rewrite C. split; [now apply klass_warp|]. rewrite E. now rewrite Hd.
Qed.

Lemma g_opt_warp m s1 M al w : b <> NoWarps -> ginv w -> has w m -> held w s1 -> klass b (vw w s1) ->
  run (h_opt_warp o opt m s1 M al)
      (fun w' y => held w' s1 /\ has w' m /\ outcome (r_warp o P (vw w' s1) M (known (dz w' m)) al) w' y) w.
Proof.
  intros Kw I Hm F K. unfold h_opt_warp. gadv @g_dict w0 d0 Hd0.
  eapply g_bind with (Q := fun w' y => held w' s1 /\ has w' m /\ exists i m' s M' al', y = OWarp i m' s M' al' /\
     held w' y /\ klass b (vw w' s) /\ known (dz w' m') = known (dz w' m) /\
     match vw w' s1 with Warp s2 M1 _ _ => (s2, aff_mul M M1, drop_backend al) | _ => (vw w' s1, M, al) end
       = (vw w' s, M', al')).
  { destruct s1 as [i l|i ps d|i m1 s ys xs ci nm nc|i m1 s M1 al1|i m1 s q|i m1 s k];
      try (eapply g_weaken; [now apply g_clone|]; cbv beta; intros w2 y L2 (j & -> & Hj & Hg); gup L2;
           split; [assumption|]; split; [assumption|]; eexists _, _, _, _, _; split; [reflexivity|];
           split; [cbn [held oid]; auto|]; split; [exact K|]; split; [reflexivity|reflexivity]).
    assert (Fs : held w0 s) by apply F.
    eapply g_weaken; [now apply g_warp|]. cbv beta. intros w2 y L2 (A & B & C & j & mj & -> & Hdz). gup L2.
    split; [assumption|]. split; [assumption|]. eexists _, _, _, _, _. split; [reflexivity|].
    split; [exact A|]. split; [rewrite vw_warp in K; now apply klass_warp in K|]. split; [now rewrite Hdz, Hd0|]. rewrite vw_warp. reflexivity. }
  cbv beta. intros w1 new L1 I1 (F1 & Hm1 & i & m' & s & M' & al' & -> & Fn & Ks & Edz & Est).
  clear F K Hm. assert (Fs : held w1 s) by apply Fn. assert (Hm' : has w1 m') by apply Fn.
  gadv @g_dict w2 d Hd. gadv @g_look w3 sd Hsd. clear d0 Hd0.
  assert (Hgo : forall u y (R : node -> Prop), held u s1 -> has u m -> vw u s1 = vw w3 s1 -> dz u m = dz w3 m ->
     outcome R u y -> (forall n, R n -> r_warp o P (vw w3 s1) M (known (dz w3 m)) al n) ->
     held u s1 /\ has u m /\ outcome (r_warp o P (vw u s1) M (known (dz u m)) al) u y).
  { intros u y R A B E1 E2 (G1 & G2 & G3) H. split; [exact A|]. split; [exact B|]. split; [exact G1|].
    split; [exact G2|]. rewrite E1, E2. auto. }
  assert (Est' : forall n, r_warp o P (vw w3 s1) M (known (dz w3 m)) al n <->
    let d := known (dz w3 m) in
    let other := fun _ : unit =>
      exists sp, r_split o P (vw w3 s) M' d al' sp /\
      match sp with
      | Some n0 => exists n', r_sub P n0 n' /\ P n' n
      | None => absorb o (vw w3 s) M' d al' = Ok n
      end in
    if opt_size_eqb (Some d) (dsize (vw w3 s)) && close_identity (al_eps al') M' then n = vw w3 s
    else match vw w3 s with
       | Concat _ _ => r_push P (Warp (vw w3 s) M' d al') n
       | Leaf l => if is_nans l then n = nans_warp l d else other tt
       | _ => other tt
       end).
  { intros n. unfold r_warp. rewrite Est. reflexivity. }
  cbv zeta in Est' |- *. rewrite Hd, Hsd, Edz.
  destruct (opt_size_eqb (Some (known (dz w3 m))) (dsize (vw w3 s)) && close_identity (al_eps al') M')%bool eqn:Eneg.
  { apply g_ret; [assumption|]. eapply (Hgo _ _ (fun n => n = vw w3 s)); auto.
    - split; [assumption|]. auto.
    - intros n ->. now apply Est'. }
  assert (Hother : (forall n, (exists sp, r_split o P (vw w3 s) M' (known (dz w3 m)) al' sp /\
      match sp with
      | Some n0 => exists n', r_sub P n0 n' /\ P n' n
      | None => absorb o (vw w3 s) M' (known (dz w3 m)) al' = Ok n
      end) -> r_warp o P (vw w3 s1) M (known (dz w3 m)) al n) ->
    run (sp <~ h_split o opt s M' (known (dz w3 m)) al';;
          match sp with Some n => n' <~ h_opt_sub opt n;; opt n' | None => h_absorb o (OWarp i m' s M' al') m' s M' al' end)
        (fun w' y => held w' s1 /\ has w' m /\ outcome (r_warp o P (vw w' s1) M (known (dz w' m)) al) w' y) w3).
  { intros HR. eapply g_bind; [apply g_split; assumption|]. cbv beta. intros w4 sp L4 I4 (Hs4 & Hsp & Hn).
    pose proof (vw_le _ _ _ L4 Fs) as Es4. rewrite Es4 in Hsp.
    pose proof (held_le _ _ _ L4 F1) as F4. pose proof (vw_le _ _ _ L4 F1) as E4.
    pose proof (has_le _ _ _ L4 Hm1) as Hm4. pose proof (dz_le _ _ _ L4 Hm1) as D4.
    destruct sp as [n|].
    - destruct Hn as [Hn Kn]. cbn [option_map] in Hsp.
      eapply g_bind; [apply g_opt_sub; assumption|]. cbv beta. intros w5 n' L5 I5 (Hn5 & Hn' & Kn' & Sn').
      rewrite (vw_le _ _ _ L5 Hn) in Sn'.
      eapply g_weaken; [apply Hopt; assumption|]. cbv beta. intros w6 y L6 (Hn6 & Hy & Ky & Py).
      rewrite (vw_le _ _ _ L6 Hn') in Py.
      assert (F5 : held w5 s1) by (eapply held_le; eassumption). assert (Hm5 : has w5 m) by (eapply has_le; eassumption).
      eapply (Hgo _ _ (fun x => x = vw w6 y)).
      + eapply held_le; eassumption.
      + eapply has_le; eassumption.
      + rewrite (vw_le _ _ _ L6 F5), (vw_le _ _ _ L5 F4). exact E4.
      + rewrite (dz_le _ _ _ L6 Hm5), (dz_le _ _ _ L5 Hm4). exact D4.
      + split; [exact Hy|]. auto.
      + intros ? ->. apply HR. exists (Some (vw w4 n)). split; [exact Hsp|]. eauto.
    - cbn [option_map] in Hsp.
      assert (Fn4 : held w4 (OWarp i m' s M' al')) by (eapply held_le; eassumption).
      eapply g_weaken; [apply g_absorb; [assumption|assumption|exact Fn4|now rewrite Es4]|]. cbv beta.
      intros w5 y L5 (Hs5 & Hm5 & Hy & Ky & Ey).
      rewrite (vw_le _ _ _ L5 Hs4), Es4 in Ey.
      assert (Hm'4 : has w4 m') by apply Fn4.
      rewrite (dz_le _ _ _ L5 Hm'4), (dz_le _ _ _ L4 Hm'), Edz in Ey.
      eapply (Hgo _ _ (fun x => x = vw w5 y)).
      + eapply held_le; eassumption.
      + eapply has_le; eassumption.
      + rewrite (vw_le _ _ _ L5 F4). exact E4.
      + rewrite (dz_le _ _ _ L5 Hm4). exact D4.
      + split; [exact Hy|]. auto.
      + intros ? ->. apply HR. exists None. auto. }
  destruct s as [i0 l|i0 ps d'|i0 m0 s ys xs ci nm nc|i0 m0 s M0 al0|i0 m0 s q|i0 m0 s k];
    try (apply Hother; intros n Hn; apply Est'; exact Hn).
  - destruct (is_nans l) eqn:En.
    + eapply g_weaken; [now apply g_leaf|]. cbv beta. intros w4 y L4 (Hy & Ey). gup L4.
      split; [assumption|]. split; [assumption|]. split; [exact Hy|]. rewrite Ey. split.
      * destruct b; cbn in Ks |- *; auto.
      * apply Est'. rewrite vw_leaf. now rewrite En.
    + apply Hother. intros n Hn. apply Est'. rewrite vw_leaf, En. exact Hn.
  - eapply g_weaken; [apply g_push_tail; [assumption|assumption|]|].
    + rewrite vw_warp. now apply klass_warp.
    + cbv beta. intros w4 y L4 (Hn4 & Hy & Ky & Ry).
      rewrite (vw_le _ _ _ L4 Fn) in Ry. rewrite vw_warp, Edz in Ry.
      eapply (Hgo _ _ (fun x => x = vw w4 y)).
      * eapply held_le; eassumption.
      * eapply has_le; eassumption.
      * eapply vw_le; eassumption.
      * eapply dz_le; eassumption.
      * split; [exact Hy|]. auto.
      * intros ? ->. apply Est'. exact Ry.
Qed.

(* the same facts about the views taken at the start *)
Lemma outcome_imp (R R' : node -> Prop) w y : (forall n, R n -> R' n) -> outcome R w y -> outcome R' w y.
Proof. intros H (A & B & C). split; [exact A|]. auto. Qed.

Lemma at_opt x w : ginv w -> held w x -> klass b (vw w x) -> run (opt x) (outcome (P (vw w x))) w.
Proof.
  intros I F K. eapply g_weaken; [apply Hopt; assumption|]. cbv beta. intros w' y L [_ H].
  now rewrite (vw_le _ _ _ L F) in H.
Qed.
Lemma at_push_tail x w : ginv w -> held w x -> klass b (vw w x) ->
  run (h_push_tail opt x) (outcome (r_push P (vw w x))) w.
Proof.
  intros I F K. eapply g_weaken; [apply g_push_tail; assumption|]. cbv beta. intros w' y L [_ H].
  now rewrite (vw_le _ _ _ L F) in H.
Qed.
Lemma at_opt_push x w (R : node -> Prop) : ginv w -> held w x -> klass b (vw w x) ->
  (forall n n', P (vw w x) n -> r_push P n n' -> R n') ->
  run (n <~ opt x ;; h_push_tail opt n) (outcome R) w.
Proof.
  intros I F K HR. eapply g_bind; [apply at_opt; assumption|]. cbv beta. intros w1 n L1 I1 (A & B & C).
  eapply g_weaken; [apply at_push_tail; assumption|]. cbv beta. intros w2 y L2 H.
  eapply outcome_imp; [|exact H]. eauto.
Qed.

Lemma at_opt_dequant m s1 q w : ginv w -> has w m -> held w s1 -> klass b (vw w s1) -> b <> NoDequants ->
  run (h_opt_dequant opt m s1 q) (outcome (r_dequant P (vw w s1) q (dz w m))) w.
Proof.
  intros I Hm F K Hb.
  assert (Hgen : (forall n, r_push P (Dequant (vw w s1) q (dz w m)) n -> r_dequant P (vw w s1) q (dz w m) n) ->
    run (new <~ clone (fun i => ODequant i m s1 q) ;; h_push_tail opt new)
        (outcome (r_dequant P (vw w s1) q (dz w m))) w).
  { intros H. eapply g_bind; [now apply g_clone|]. cbv beta. intros w1 y L1 I1 (i & -> & Hi & Hg).
    pose proof (vw_le _ _ _ L1 F) as E. pose proof (dz_le _ _ _ L1 Hm) as Ed.
    eapply g_weaken; [apply at_push_tail; [assumption| |]|].
    - cbn [held oid]. split; [exact Hi|]. split; [exact Hg|]. split; [eapply has_le; eassumption|eapply held_le; eassumption].
    - rewrite vw_deq, E. apply klass_deq. auto.
    - cbv beta. intros w2 y2 L2 H2. eapply outcome_imp; [|exact H2]. intros n. rewrite vw_deq, E, Ed. apply H. }
  destruct s1 as [i l|i ps d|i m1 s ys xs ci nm nc|i m1 s M al|i m1 s q1|i m1 s k]; cbn [h_opt_dequant];
    try (apply Hgen; intros n Hn; exact Hn); try apply g_raise.
  rewrite vw_warp in *. assert (Fs : held w s) by apply F. assert (Hm1 : has w m1) by apply F.
  eapply g_bind; [now apply g_dequant|]. cbv beta. intros w1 s' L1 I1 (Hs' & _ & Es').
  rewrite (vw_le _ _ _ L1 Fs) in Es'.
  eapply g_bind; [now apply g_clone|]. cbv beta. intros w2 y L2 I2 (j & -> & Hj & Hg).
  assert (E2 : vw w2 (OWarp j m1 s' M al) = Warp (mkDequant (vw w s) q) M (known (dz w m1)) al).
  { rewrite vw_warp, (vw_le _ _ _ L2 Hs'), Es'. f_equal. f_equal. rewrite (dz_le _ _ _ L2), (dz_le _ _ _ L1); auto.
    eapply has_le; eassumption. }
  apply at_opt_push; [assumption| | |].
  - cbn [held oid]. split; [exact Hj|]. split; [exact Hg|].
    split; [eapply has_le; [eassumption|]; eapply has_le; eassumption|eapply held_le; eassumption].
  - rewrite E2. apply klass_warp in K as [Kw K]. apply klass_warp. split; [exact Kw|]. apply klass_deq. auto.
  - intros n n' Hn Hp. rewrite E2 in Hn. cbn [r_dequant]. eauto.
Qed.

Lemma at_crop_tail x w : ginv w -> held w x -> klass b (vw w x) ->
  run (h_crop_tail opt x) (outcome (r_crop_tail P (vw w x))) w.
Proof.
  intros I F K.
  destruct x as [i l|i ps d|i m s ys xs ci nm nc|i m s M al|i m s q|i m s k]; cbn [h_crop_tail];
    try (now apply at_push_tail).
  destruct s as [i0 l|i0 ps d|i0 m0 s ys0 xs0 ci0 nm0 nc0|i0 m0 s M0 al0|i0 m0 s q0|i0 m0 s k0];
    try (now apply at_push_tail).
  assert (Fs : held w (OConcat i0 ps d)) by apply F.
  rewrite vw_crop in K |- *. apply klass_crop in K. rewrite vw_concat in *.
  eapply g_bind with (Q := fun w' y => outcome (fun taken => match ci with
      | None => taken = Concat (map (vw w) ps) d
      | Some l => exists t', r_take (Concat (map (vw w) ps) d) l t' /\ P t' taken
      end) w' y).
  { destruct ci as [l|].
    - eapply g_bind; [now apply g_take|]. cbv beta. intros w1 t' L1 I1 (A & B & C & D).
      rewrite (vw_le _ _ _ L1 Fs), vw_concat in C, D.
      eapply g_weaken; [apply at_opt; auto|]. cbv beta. intros w2 y L2 H. eapply outcome_imp; [|exact H]. eauto.
    - apply g_ret; [assumption|]. split; [exact Fs|]. rewrite vw_concat. auto. }
  cbv beta. intros w1 taken L1 I1 (Ht & Kt & Et).
  eapply g_bind; [now apply g_crop|]. cbv beta. intros w2 c L2 I2 (Hc & _ & Ec & _).
  rewrite (vw_le _ _ _ L2 Ht) in Ec. pose proof (klass_mkCrop _ _ _ _ _ Kt Ec) as Kc.
  eapply g_bind; [now apply g_push|]. cbv beta. intros w3 p L3 I3 (Hc3 & Ep & Hp).
  pose proof (vw_le _ _ _ L3 Hc) as E3. rewrite E3 in Ep.
  assert (Hend : forall z, held w3 z -> klass b (vw w3 z) ->
    vw w3 z = match option_map (vw w3) p with Some p => p | None => vw w2 c end ->
    run (opt z) (outcome (r_crop_tail P (Crop (Concat (map (vw w) ps) d) ys xs ci (known (dz w m)) nm nc))) w3).
  { intros z Hz Kz Ez. eapply g_weaken; [apply at_opt; assumption|]. cbv beta. intros w4 y L4 H.
    eapply outcome_imp; [|exact H]. intros n Hn. cbn [r_crop_tail].
    exists (vw w1 taken), (vw w2 c), (option_map (vw w3) p). split; [exact Et|]. split; [exact Ec|].
    split; [exact Ep|]. now rewrite <- Ez. }
  destruct p as [p|]; apply Hend; auto.
  - eapply klass_push; [exact Kc|exact Ep].
  - now rewrite E3.
Qed.

Lemma at_opt_crop_tail x w (R : node -> Prop) : ginv w -> held w x -> klass b (vw w x) ->
  (forall n n', P (vw w x) n -> r_crop_tail P n n' -> R n') ->
  run (n <~ opt x ;; h_crop_tail opt n) (outcome R) w.
Proof.
  intros I F K HR. eapply g_bind; [apply at_opt; assumption|]. cbv beta. intros w1 n L1 I1 (A & B & C).
  eapply g_weaken; [apply at_crop_tail; assumption|]. cbv beta. intros w2 y L2 H.
  eapply outcome_imp; [|exact H]. eauto.
Qed.

Lemma at_opt_crop m s1 ys xs ci nm nc w : ginv w -> has w m -> held w s1 -> klass b (vw w s1) ->
  run (h_opt_crop opt m s1 ys xs ci nm nc) (outcome (r_crop P (vw w s1) ys xs ci (known (dz w m)) nm nc)) w.
Proof.
  intros I Hm F K. unfold h_opt_crop.
  eapply g_bind with (Q := fun w' y => held w' y /\ klass b (vw w' y) /\
    (exists i m' s ys' xs' ci' nm' nc', y = OCrop i m' s ys' xs' ci' nm' nc') /\
    match vw w s1 with
    | Crop s2 ys1 xs1 ci1 _ _ _ => fuse_crops s2 ys1 xs1 ci1 ys xs ci = Ok (vw w' y)
    | _ => vw w' y = Crop (vw w s1) ys xs ci (known (dz w m)) nm nc
    end).
  { assert (Hgen : (forall n, n = Crop (vw w s1) ys xs ci (known (dz w m)) nm nc ->
      match vw w s1 with
      | Crop s2 ys1 xs1 ci1 _ _ _ => fuse_crops s2 ys1 xs1 ci1 ys xs ci = Ok n
      | _ => n = Crop (vw w s1) ys xs ci (known (dz w m)) nm nc
      end) -> run (clone (fun i => OCrop i m s1 ys xs ci nm nc)) (fun w' y => held w' y /\ klass b (vw w' y) /\
    (exists i m' s ys' xs' ci' nm' nc', y = OCrop i m' s ys' xs' ci' nm' nc') /\
    match vw w s1 with
    | Crop s2 ys1 xs1 ci1 _ _ _ => fuse_crops s2 ys1 xs1 ci1 ys xs ci = Ok (vw w' y)
    | _ => vw w' y = Crop (vw w s1) ys xs ci (known (dz w m)) nm nc
    end) w).
    { intros HH. eapply g_weaken; [now apply g_clone|]. cbv beta. intros w1 y L1 (i & -> & Hi & Hg).
      pose proof (vw_le _ _ _ L1 F) as E. pose proof (dz_le _ _ _ L1 Hm) as Ed.
      split. { cbn [held oid]. split; [exact Hi|]. split; [exact Hg|]. split; [eapply has_le; eassumption|eapply held_le; eassumption]. }
      rewrite vw_crop, E, Ed. split; [now apply klass_crop|]. split; [repeat eexists|]. now apply HH. }
    destruct s1 as [i l|i ps d|i m1 s ys1 xs1 ci1 nm1 nc1|i m1 s M al|i m1 s q1|i m1 s k];
      try (apply Hgen; intros n Hn; exact Hn).
    rewrite vw_crop in K |- *. apply klass_crop in K. assert (Fs : held w s) by apply F.
    eapply g_weaken; [now apply g_fuse_crops|]. cbv beta. intros w1 y L1 (A & B & C & i' & m' & ys' & xs' & ci' & nm' & nc' & ->).
    rewrite (vw_le _ _ _ L1 Fs) in C. split; [exact A|]. split.
    { rewrite vw_crop. apply klass_crop. now rewrite (vw_le _ _ _ L1 Fs). }
    split; [repeat eexists|]. exact C. }
  cbv beta. intros w1 c1 L1 I1 (F1 & K1 & (i & m' & s & ys' & xs' & ci' & nm' & nc' & ->) & E1).
  assert (HR : forall y u, outcome (fun n =>
     match vw w1 (OCrop i m' s ys' xs' ci' nm' nc') with
  | Crop (Leaf l) _ _ _ _ _ _ =>
      if is_nans l then nans_crop l ys xs ci = Ok n else n = vw w1 (OCrop i m' s ys' xs' ci' nm' nc')
  | Crop (Warp sw M _ al) ysw xsw ciw d' _ _ =>
      if al_nearest al then n = vw w1 (OCrop i m' s ys' xs' ci' nm' nc') else
      exists r, warp_after_crop sw M ysw xsw ciw d' = Ok r /\
      match r with
      | None => n = vw w1 (OCrop i m' s ys' xs' ci' nm' nc')
      | Some (c, T) => exists n', P (Warp c T d' (drop_backend al)) n' /\ r_crop_tail P n' n
      end
  | Crop (Dequant sw q _) ysw xsw ciw d' nmw ncw =>
      exists n', P (Dequant (Crop sw ysw xsw ciw d' nmw ncw) q (Some d')) n' /\ r_crop_tail P n' n
  | _ => r_crop_tail P (vw w1 (OCrop i m' s ys' xs' ci' nm' nc')) n
  end) u y -> outcome (r_crop P (vw w s1) ys xs ci (known (dz w m)) nm nc) u y).
  { intros y u H. eapply outcome_imp; [|exact H]. intros n Hn. unfold r_crop.
    exists (vw w1 (OCrop i m' s ys' xs' ci' nm' nc')). split; [exact E1|exact Hn]. }
  clear E1. eapply g_weaken; [|cbv beta; intros u y _; apply HR]. clear HR.
  assert (Fs : held w1 s) by apply F1. assert (Hm' : has w1 m') by apply F1.
  assert (Ks : klass b (vw w1 s)). { rewrite vw_crop in K1. now apply klass_crop in K1. }
  destruct s as [i0 l|i0 ps d|i0 m0 s ys0 xs0 ci0 nm0 nc0|i0 m0 s M0 al0|i0 m0 s q0|i0 m0 s k0];
    try (eapply g_weaken; [now apply at_crop_tail|]; cbv beta; intros u y Lu H; exact H).
  - rewrite vw_crop, vw_leaf in *. destruct (is_nans l) eqn:En.
    + eapply g_bind; [now apply g_lift|]. cbv beta. intros w2 t L2 I2 Ht.
      eapply g_weaken; [now apply g_leaf|]. cbv beta. intros w3 y L3 [Hy Ey]. split; [exact Hy|].
      rewrite Ey. split; [|exact Ht]. clear -Ht Ks. unfold nans_crop in Ht.
      apply bind_ok in Ht as (nm2 & _ & Ht). apply bind_ok in Ht as ([dy ey] & _ & Ht).
      apply bind_ok in Ht as ([dx ex] & _ & Ht). injection Ht as <-. revert Ks. rewrite ?vw_leaf. destruct b; exact (fun H => H).
    + apply g_ret; [assumption|]. split; [exact F1|]. rewrite vw_crop, vw_leaf. split; [exact K1|reflexivity].
  - rewrite vw_crop, vw_warp in *. assert (Fs0 : held w1 s) by apply Fs. destruct (al_nearest al0) eqn:Ea.
    { apply g_ret; [assumption|]. split; [exact F1|]. rewrite vw_crop, vw_warp. split; [exact K1|reflexivity]. }
    eapply g_bind; [now apply g_dict|]. cbv beta. intros w2 d' L2 I2 Ed'. rewrite (dz_le _ _ _ L2 Hm') in Ed'. subst d'.
    assert (Fs2 : held w2 s) by (eapply held_le; eassumption). pose proof (vw_le _ _ _ L2 Fs0) as Es2.
    eapply g_bind; [now apply g_warp_after_crop|]. cbv beta. intros w3 r L3 I3 [_ Hr].
    rewrite (vw_le _ _ _ L3 Fs2), Es2 in Hr. destruct r as [[c T]|].
    + destruct Hr as [Hc Er]. eapply g_bind; [now apply g_warp|]. cbv beta. intros w4 x L4 I4 (Hx & _ & Ex & _).
      rewrite (vw_le _ _ _ L4 Hc) in Ex. apply at_opt_crop_tail; [assumption|assumption| |].
      * rewrite Ex. apply klass_warp in Ks as [Kw Ks]. apply klass_warp. split; [exact Kw|]. eapply klass_warp_after_crop; [exact Ks|exact Er].
      * intros n n' Hn Hn'. rewrite Ex in Hn. exists (Some (vw w3 c, T)). split; [exact Er|]. eauto.
    + assert (L13 : gle w1 w3) by (eapply gle_trans; eassumption).
      apply g_ret; [assumption|]. split; [eapply held_le; eassumption|].
      rewrite (vw_le _ _ _ L13 F1). rewrite vw_crop, vw_warp. split; [exact K1|]. exists None. auto.
  - rewrite vw_crop, vw_deq in *. assert (Fs0 : held w1 s) by apply Fs.
    eapply g_bind; [now apply g_clone|]. cbv beta. intros w2 y L2 I2 (j & -> & Hj & Hg).
    assert (E2 : vw w2 (OCrop j m' s ys' xs' ci' nm' nc') = Crop (vw w1 s) ys' xs' ci' (known (dz w1 m')) nm' nc').
    { rewrite vw_crop, (vw_le _ _ _ L2 Fs0), (dz_le _ _ _ L2 Hm'). reflexivity. }
    eapply g_bind; [apply g_dequant; [assumption|]|].
    { cbn [held oid]. split; [exact Hj|]. split; [exact Hg|]. split; [eapply has_le; eassumption|eapply held_le; eassumption]. }
    cbv beta. intros w3 x L3 I3 (Hx & Hy & Ex).
    assert (Fy : held w2 (OCrop j m' s ys' xs' ci' nm' nc')).
    { cbn [held oid]. split; [exact Hj|]. split; [exact Hg|]. split; [eapply has_le; eassumption|eapply held_le; eassumption]. }
    rewrite (vw_le _ _ _ L3 Fy), E2 in Ex. cbn [mkDequant dsize] in Ex. apply klass_deq in Ks as [Hb Ks].
    apply at_opt_crop_tail; [assumption|assumption| |].
    + rewrite Ex. unfold mkDequant. apply klass_deq. split; [exact Hb|]. now apply klass_crop.
    + intros n n' Hn Hn'. rewrite Ex in Hn. exists n. split; [exact Hn|exact Hn'].
Qed.

Lemma at_opt_overview m s1 k w : ginv w -> has w m -> held w s1 -> klass b (vw w s1) -> b = NoDequants ->
  run (h_opt_overview opt m s1 k) (outcome (r_overview P (vw w s1) k (known (dz w m)))) w.
Proof.
  intros I Hm F K Hb. unfold h_opt_overview.
  eapply g_bind with (Q := fun w' y => held w' y /\ klass b (vw w' y) /\
    (exists i m' s k', y = OOverview i m' s k') /\
    match vw w s1 with
    | Overview s2 k2 _ => mkOverview s2 (k2 + k) = Ok (vw w' y)
    | _ => vw w' y = Overview (vw w s1) k (known (dz w m))
    end).
  { assert (Hgen : (forall n, n = Overview (vw w s1) k (known (dz w m)) ->
      match vw w s1 with
      | Overview s2 k2 _ => mkOverview s2 (k2 + k) = Ok n
      | _ => n = Overview (vw w s1) k (known (dz w m))
      end) -> run (clone (fun i => OOverview i m s1 k)) (fun w' y => held w' y /\ klass b (vw w' y) /\
    (exists i m' s k', y = OOverview i m' s k') /\
    match vw w s1 with
    | Overview s2 k2 _ => mkOverview s2 (k2 + k) = Ok (vw w' y)
    | _ => vw w' y = Overview (vw w s1) k (known (dz w m))
    end) w).
    { intros HH. eapply g_weaken; [now apply g_clone|]. cbv beta. intros w1 y L1 (i & -> & Hi & Hg).
      pose proof (vw_le _ _ _ L1 F) as E. pose proof (dz_le _ _ _ L1 Hm) as Ed.
      split. { cbn [held oid]. split; [exact Hi|]. split; [exact Hg|]. split; [eapply has_le; eassumption|eapply held_le; eassumption]. }
      rewrite vw_ov, E, Ed. split; [now apply klass_ov|]. split; [repeat eexists|]. now apply HH. }
    destruct s1 as [i l|i ps d|i m1 s ys1 xs1 ci1 nm1 nc1|i m1 s M al|i m1 s q1|i m1 s k1];
      try (apply Hgen; intros n Hn; exact Hn).
    rewrite vw_ov in K |- *. apply klass_ov in K as [_ K]. assert (Fs : held w s) by apply F.
    eapply g_weaken; [now apply g_overview|]. cbv beta. intros w1 y L1 (A & B & C & i' & m' & ->).
    rewrite (vw_le _ _ _ L1 Fs) in C. split; [exact A|]. split.
    { rewrite vw_ov. apply klass_ov. now rewrite (vw_le _ _ _ L1 Fs). }
    split; [repeat eexists|]. exact C. }
  cbv beta. intros w1 o1 L1 I1 (F1 & K1 & (i & m' & s & k' & ->) & E1).
  assert (HR : forall y u, outcome (fun n =>
    match vw w1 (OOverview i m' s k') with
  | Overview sw k1 d1 =>
      if (k1 =? 0)%Z then r_push P sw n
      else match sw with
           | Crop s2 ys xs ci _ _ _ =>
               exists n0 n', crop_after_overview s2 ys xs ci k1 = Ok n0 /\ P n0 n' /\ r_push P n' n
           | Warp s2 B _ _ =>
               exists n0 n', warp_after_overview_node s2 B k1 = Ok n0 /\ P n0 n' /\ r_push P n' n
           | Dequant s2 q _ =>
               exists n', P (Dequant (Overview s2 k1 d1) q (Some d1)) n' /\ r_push P n' n
           | _ => r_push P (vw w1 (OOverview i m' s k')) n
           end
  | _ => False
  end) u y -> outcome (r_overview P (vw w s1) k (known (dz w m))) u y).
  { intros y u H. eapply outcome_imp; [|exact H]. intros n Hn. unfold r_overview.
    exists (vw w1 (OOverview i m' s k')). split; [exact E1|exact Hn]. }
  clear E1. eapply g_weaken; [|cbv beta; intros u y _; apply HR]. clear HR.
  assert (Fs : held w1 s) by apply F1. assert (Hm' : has w1 m') by apply F1.
  assert (Ks : klass b (vw w1 s)). { rewrite vw_ov in K1. now apply klass_ov in K1. }
  rewrite vw_ov. destruct (k' =? 0)%Z; [now apply at_push_tail|].
  destruct s as [i0 l|i0 ps d|i0 m0 s ys0 xs0 ci0 nm0 nc0|i0 m0 s M0 al0|i0 m0 s q0|i0 m0 s k0];
    try (eapply g_weaken; [now apply at_push_tail|]; cbv beta; intros u y Lu H; exact H).
  - rewrite vw_crop in *. assert (Fs0 : held w1 s) by apply Fs. apply klass_crop in Ks.
    eapply g_bind; [now apply g_crop_after_overview|]. cbv beta. intros w2 n L2 I2 (Hn & _ & En).
    rewrite (vw_le _ _ _ L2 Fs0) in En. apply at_opt_push; [assumption|assumption| |].
    + eapply klass_crop_after_overview; eassumption.
    + intros n1 n2 H1 H2. eauto.
  - rewrite vw_warp in *. assert (Fs0 : held w1 s) by apply Fs. apply klass_warp in Ks as [_ Ks].
    eapply g_bind; [now apply g_warp_after_overview|]. cbv beta. intros w2 n L2 I2 (Hn & _ & En).
    rewrite (vw_le _ _ _ L2 Fs0) in En. apply at_opt_push; [assumption|assumption| |].
    + eapply klass_warp_after_overview; eassumption.
    + intros n1 n2 H1 H2. eauto.
  - rewrite vw_deq in Ks. apply klass_deq in Ks as [Hb' _]. congruence.
Qed.

End Opt.

Hypothesis round_P : forall t n, round o P t n -> P t n.

Lemma held_gh' w x : held w x -> has w (oid x) /\ gh w (oid x) = Some x.
Proof. destruct x; cbn; tauto. Qed.

Theorem g_optimize shared : forall fuel x w, ginv w -> held w x -> klass b (vw w x) ->
  run (h_optimize shared o fuel x) (fun w' y => held w' x /\ outcome (P (vw w' x)) w' y) w.
Proof.
  induction fuel as [|fuel IH]; intros x w I F K; [apply g_raise|].
  intros a s' E. cbn [h_optimize] in E.
  destruct (if shared then memo_get (memo (gs w)) (oid x) else None) as [y|] eqn:Em.
  - injection E as <- <-. exists w. split; [reflexivity|]. split; [apply gle_refl|]. split; [exact I|]. split; [exact F|].
    destruct shared; [|discriminate]. apply memo_get_In in Em.
    unfold ginv in I. rewrite Forall_forall in I. specialize (I _ Em) as (x' & G & Eo & Hx' & Hy & Ky & Py).
    cbn [fst snd] in *. destruct (held_gh' _ _ F) as [_ G']. rewrite G' in G. injection G as <-.
    split; [exact Hy|]. split; [exact Ky|exact Py].
  - revert a s' E.
    change (run (let opt := h_optimize shared o fuel in
           y <~ match x with
                | OLeaf _ _ => ret x
                | OConcat _ ps _ =>
                    qs <~ mapA opt ps ;;
                    if all_same qs ps then ret x
                    else c <~ h_concat qs ;; ret (match c with Some c => c | None => x end)
                | OWarp _ m s M al => s1 <~ opt s ;; h_opt_warp o opt m s1 M al
                | ODequant _ m s q => s1 <~ opt s ;; h_opt_dequant opt m s1 q
                | OCrop _ m s ys xs ci nm nc => s1 <~ opt s ;; h_opt_crop opt m s1 ys xs ci nm nc
                | OOverview _ m s k => s1 <~ opt s ;; h_opt_overview opt m s1 k
                end ;;
           u <~ remember x y ;; ret y) (fun w' y => held w' x /\ outcome (P (vw w' x)) w' y) w).
    cbv zeta. set (opt := h_optimize shared o fuel) in *.
    eapply g_bind with (Q := fun w' y => outcome (P (vw w x)) w' y).
    2:{ cbv beta. intros w1 y L1 I1 HO0. destruct HO0 as (Hy & Ky & Py). intros a s' E. injection E as <- <-.
        set (w2 := GW (gh w1) (Store (next (gs w1)) (sizes (gs w1)) ((oid x, y) :: memo (gs w1)))).
        assert (L2 : gle w1 w2).
        { split; [apply Nat.le_refl|]. intros j Hj. split; reflexivity. }
        exists w2. pose proof (held_le _ _ _ L1 F) as F1. pose proof (held_le _ _ _ L2 F1) as F2.
        pose proof (held_le _ _ _ L2 Hy) as Hy2.
        assert (Ex : vw w2 x = vw w x). { rewrite (vw_le _ _ _ L2 F1). now apply vw_le. }
        assert (Ey : vw w2 y = vw w1 y) by now apply vw_le.
        split; [reflexivity|]. split; [exact L2|].
        assert (HO : outcome (P (vw w2 x)) w2 y). { split; [exact Hy2|]. rewrite Ex, Ey. auto. }
        split; [|split; [exact F2|exact HO]].
        unfold ginv. cbn [memo gs w2]. constructor.
        - exists x. cbn [fst snd]. destruct HO as (A & B & C). destruct (held_gh' _ _ F2) as [_ G].
          repeat split; auto.
        - eapply Forall_impl; [|exact I1]. intros e He. eapply entry_le; eassumption. }
    assert (Hround : forall u y, outcome (round o P (vw w x)) u y -> outcome (P (vw w x)) u y).
    { intros u y. apply outcome_imp. auto. }
    eapply g_weaken; [|cbv beta; intros u y _; apply Hround]. clear Hround.
    destruct x as [i l|i ps d|i m s ys xs ci nm nc|i m s M al|i m s q|i m s k].
    + apply g_ret; [assumption|]. split; [exact F|]. rewrite vw_leaf in *. split; [exact K|reflexivity].
    + rewrite vw_concat in *. pose proof F as F0. apply held_concat in F0 as (Hi & Hg & Fps). apply klass_concat in K.
      rewrite Forall_map in K.
      eapply g_bind.
      { apply (g_mapA opt (fun u p => held u p /\ klass b (vw u p))
                 (fun u p y => held u p /\ outcome (P (vw u p)) u y)).
        - intros u u' p Lu [A B]. split; [eapply held_le; eassumption|]. now rewrite (vw_le _ _ _ Lu A).
        - intros u u' p y Lu (A & B & C & D). split; [eapply held_le; eassumption|].
          split; [eapply held_le; eassumption|]. now rewrite (vw_le _ _ _ Lu A), (vw_le _ _ _ Lu B).
        - intros u p Iu [A B]. now apply IH.
        - exact I.
        - rewrite Forall_forall in *. auto. }
      cbv beta. intros w1 qs L1 I1 HQ.
      assert (Eps : map (vw w1) ps = map (vw w) ps) by now apply vws_le.
      assert (F1 : held w1 (OConcat i ps d)) by (eapply held_le; eassumption).
      assert (HF : Forall2 P (map (vw w) ps) (map (vw w1) qs) /\ Forall (held w1) qs /\ Forall (klass b) (map (vw w1) qs) /\ Forall (held w1) ps).
      { rewrite <- Eps. clear -HQ. induction HQ as [|p q ps qs (A & B & C & D) HQ (IH1 & IH2 & IH3 & IH4)]; [repeat constructor|].
        repeat split; constructor; assumption. }
      destruct HF as (HF & Hqs & Kqs & Hps).
      destruct (all_same qs ps) eqn:Ea.
      * assert (Eqs : qs = ps).
        { clear -Ea HF Hqs Hps. assert (El : List.length qs = List.length ps).
          { apply F2_len in HF. rewrite !map_length in HF. now symmetry. }
          clear HF. revert ps El Ea Hps. induction Hqs as [|q qs Hq Hqs IH]; intros [|p ps] El Ea Hps; try discriminate; [reflexivity|].
          cbn [all_same combine forallb fst snd] in Ea. apply Bool.andb_true_iff in Ea as [E1 E2].
          apply Forall_cons_iff in Hps as [Hp Hps]. f_equal.
          - apply (held_same w1); auto. now apply Nat.eqb_eq.
          - apply IH; auto. }
        subst qs. apply g_ret; [assumption|]. split; [exact F1|]. rewrite vw_concat, Eps.
        split; [apply klass_concat; now rewrite Forall_map|]. cbn [round]. exists (map (vw w1) ps). split; [exact HF|].
        left. rewrite Eps. auto.
      * eapply g_bind; [now apply g_concat|]. cbv beta. intros w2 c L2 I2 Hc.
        rewrite (vws_le _ _ _ L2 Hqs) in Hc. assert (F2 : held w2 (OConcat i ps d)) by (eapply held_le; eassumption).
        destruct c as [c|]; (apply g_ret; [assumption|]).
        -- destruct Hc as (Hc & _ & Ec). split; [exact Hc|]. split; [eapply klass_mkConcat; eassumption|].
           cbn [round]. exists (map (vw w1) qs). split; [exact HF|]. right. now rewrite Ec.
        -- destruct Hc as (_ & Ec). split; [exact F2|]. rewrite vw_concat.
           assert (Eps2 : map (vw w2) ps = map (vw w) ps). { rewrite (vws_le _ _ _ L2 Hps). exact Eps. }
           rewrite Eps2. split; [apply klass_concat; now rewrite Forall_map|].
           cbn [round]. exists (map (vw w1) qs). split; [exact HF|]. right. now rewrite Ec.
    + assert (Fs : held w s) by apply F. assert (Hm : has w m) by apply F. rewrite vw_crop in *.
      apply klass_crop in K. eapply g_bind; [now apply (at_opt opt IH)|]. cbv beta. intros w1 s1 L1 I1 (A & B & C).
      eapply g_weaken; [apply (at_opt_crop opt IH); [assumption|eapply has_le; eassumption|assumption|assumption]|].
      cbv beta. intros u y Lu. apply outcome_imp. intros n Hn. rewrite (dz_le _ _ _ L1 Hm) in Hn. cbn [round]. eauto.
    + assert (Fs : held w s) by apply F. assert (Hm : has w m) by apply F. rewrite vw_warp in *.
      apply klass_warp in K as [Kw K]. eapply g_bind; [now apply (at_opt opt IH)|]. cbv beta. intros w1 s1 L1 I1 (A & B & C).
      eapply g_weaken; [apply (g_opt_warp opt IH); [assumption|assumption|eapply has_le; eassumption|assumption|assumption]|].
      cbv beta. intros u y Lu (_ & _ & H). eapply outcome_imp; [|exact H]. intros n Hn.
      rewrite (dz_le _ _ _ Lu), (dz_le _ _ _ L1 Hm), (vw_le _ _ _ Lu A) in Hn by (eapply has_le; eassumption).
      cbn [round]. eauto.
    + assert (Fs : held w s) by apply F. assert (Hm : has w m) by apply F. rewrite vw_deq in *.
      apply klass_deq in K as [Hb K]. eapply g_bind; [now apply (at_opt opt IH)|]. cbv beta. intros w1 s1 L1 I1 (A & B & C).
      eapply g_weaken; [apply (at_opt_dequant opt IH); [assumption|eapply has_le; eassumption|assumption|assumption|assumption]|].
      cbv beta. intros u y Lu. apply outcome_imp. intros n Hn. rewrite (dz_le _ _ _ L1 Hm) in Hn. cbn [round]. eauto.
    + assert (Fs : held w s) by apply F. assert (Hm : has w m) by apply F. rewrite vw_ov in *.
      apply klass_ov in K as [Hb K]. eapply g_bind; [now apply (at_opt opt IH)|]. cbv beta. intros w1 s1 L1 I1 (A & B & C).
      eapply g_weaken; [apply (at_opt_overview opt IH); [assumption|eapply has_le; eassumption|assumption|assumption|assumption]|].
      cbv beta. intros u y Lu. apply outcome_imp. intros n Hn. rewrite (dz_le _ _ _ L1 Hm) in Hn. cbn [round]. eauto.
Qed.

End Sim.
