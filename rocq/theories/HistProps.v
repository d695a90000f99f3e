(* C119-C122: the metadata of images over histories of calls. *)
From Verif Require Import PyProofs ChanProofs HistModel HistSpec HistProofs.
Local Open Scope Z_scope.

Lemma top_view h i d : (i <? List.length h)%nat = true -> inv h -> inv (mkO (KView i) None None d None :: h).
Proof.
  intros H Hi. apply Nat.ltb_lt in H. split; [|exact Hi]. split; [cbn; discriminate|]. cbn. split; [exact H|]. discriminate.
Qed.

Lemma all_names_counts h ps f : inv h -> all_names h ps = Some f -> exists n, sum_num (map (num_channels h) ps) = Some n /\ counts f n.
Proof.
  intros Hi. revert f. induction ps as [|p ps IH]; cbn [all_names map sum_num]; intros f E.
  - injection E as <-. exists 0. split; [reflexivity|apply counts_nil].
  - destruct (channels h p) as [f0|] eqn:E0; [|discriminate]. destruct (all_names h ps) as [r|]; [|discriminate]. injection E as <-.
    destruct (inv_counts h Hi p f0 E0) as (n & -> & Cn). destruct (IH r eq_refl) as (m & -> & Cm).
    exists (n + m). split; [reflexivity|]. now apply counts_app.
Qed.

Lemma set_meta_named d f n : good_data d -> set_meta d = Ok (f, n) ->
  forall g, f = Some g -> good g /\ exists m, n = Some m /\ counts g m.
Proof. intros Hg H g ->. now apply (set_meta_ok d). Qed.

Lemma step_inv h op : inv h -> honest h op -> inv (hnext h op).
Proof.
  intros Hi Ho. unfold hnext. destruct (hstep h op) as [h'|] eqn:E; [|exact Hi].
  destruct op as [src ch d|hh ww b ch|d ch|i auto w hh|i ci w hh|i w hh|i|i|ps d|i ch|i]; cbn [hstep] in E; cbn [honest] in Ho.
  - apply bind_ok in E as ([f n] & Hs & [= <-]). split; [|exact Hi]. split; [|exact I]. cbn. now apply (set_meta_named ch).
  - apply bind_ok in E as ([f n] & Hs & [= <-]). split; [|exact Hi]. split; [|exact I]. cbn. intros g ->. destruct Ho as (Hg & Hb).
    destruct (set_meta_ok ch g n Hg Hs) as (G & _). split; [exact G|]. exists b. split; [reflexivity|]. now apply (Hb g n).
  - apply bind_ok in E as ([f n] & Hs & [= <-]). split; [|exact Hi]. split; [|exact I]. cbn. now apply (set_meta_named ch).
  - destruct (i <? List.length h)%nat eqn:El; [|discriminate]. destruct (negb auto || full_size (size_of h i))%bool; [|discriminate]. injection E as <-. now apply top_view.
  - destruct (i <? List.length h)%nat eqn:El; [|discriminate]. destruct (full_size (size_of h i)); [|discriminate]. apply Nat.ltb_lt in El.
    apply bind_ok in E as ([f n] & Hs & [= <-]). split; [|exact Hi]. cbn.
    destruct ci as [l|]; [|injection Hs as <- <-; split; [cbn; discriminate|]; split; [exact El|discriminate]].
    destruct (channels h i) as [f0|] eqn:Ec.
    + apply bind_ok in Hs as (g & Hgi & Hs). destruct g as [c|g]; [discriminate|].
      assert (Gg : good g). { unfold ChanModel.getitem in Hgi. apply bind_ok in Hgi as (nf & _ & Hgi). apply bind_ok in Hgi as (cs & _ & [= <-]). intros K. discriminate. }
      split; [cbn; now apply (set_meta_named (Some (DFused g)))|]. cbn. split; [exact El|].
      intros f1 m Ef _ _. subst f. cbn in Hs. exfalso. apply bind_ok in Hs as (? & _ & Hs). apply bind_ok in Hs as (? & _ & [=]).
    + cbn in Hs. injection Hs as <- <-. split; [cbn; discriminate|]. cbn. split; [exact El|]. congruence.
  - destruct (i <? List.length h)%nat eqn:El; [|discriminate]. destruct (full_size (size_of h i)); [|discriminate]. injection E as <-. now apply top_view.
  - destruct (i <? List.length h)%nat eqn:El; [|discriminate]. injection E as <-. now apply top_view.
  - destruct (i <? List.length h)%nat eqn:El; [|discriminate]. injection E as <-. now apply top_view.
  - destruct (forallb _ ps) eqn:El; [|discriminate]. apply bind_ok in E as (d' & _ & [= <-]). split; [|exact Hi]. split; [cbn; discriminate|]. cbn.
    split; [|intros f Hf; now apply all_names_counts].
    rewrite forallb_forall in El. apply Forall_forall. intros p Hp. apply Nat.ltb_lt. now apply El.
  - destruct Ho as (Hg & Ho). destruct (get_obj h i) as [o|] eqn:Eo; [|discriminate].
    assert (Hk : match o_kind o with KConcat _ => False | _ => True end) by (destruct o as [[] ? ? ? ?]; try exact I; discriminate).
    assert (E' : ('(f, n) <- set_meta ch ;; Ok (rename i f n h)) = Ok h') by (destruct o as [[] ? ? ? ?]; try exact E; destruct Hk).
    apply bind_ok in E' as ([f n] & Hs & [= <-]).
    apply (rename_inv (referenced h) i f n h o); [exact Hi|exact Eo|exact Hk|now apply (set_meta_named ch)| |].
    + intros g Eg. apply Ho; [|exact Eg]. cbn [hstep]. rewrite Eo. destruct o as [[] ? ? ? ?]; try (rewrite Hs; reflexivity). destruct Hk.
    + intros o' Ho' p Hp. exists o'. auto.
  - destruct (i <? List.length h)%nat eqn:El; [|discriminate]. injection E as <-. now apply prepare_inv.
Qed.

Lemma every_inv ops : forall h, inv h -> every_call honest h ops -> inv (fold_left hnext ops h).
Proof.
  induction ops as [|op ops IH]; intros h Hi H; [exact Hi|]. destruct H as (H1 & H2). cbn. apply IH; [now apply step_inv|exact H2].
Qed.

(** * C119: names and number of channels agree *)
(* Four histories after which an image has names, but not for as many channels as it says:
   an array with fewer names than bands, a number given to a view of a named image, an image
   renamed after it was concatenated, an image named after its bands were selected. *)
Theorem C119_agree_refuted :
  let differ ops i := exists f n m, channels (after ops) i = Some f /\ num_channels (after ops) i = Some n /\ counts f m /\ n <> m in
  differ [HArray 4 4 3 (Some (DStr "a|b"))] 0%nat /\
  differ [HLoad (SGdal 4 4 3 0) (Some (DStr "r|g|b")) (Some (Some 4, Some 4)); HWarp 0 false 4 4; HSet 1 (Some (DInt 2))] 1%nat /\
  differ [HLoad (SGdal 4 4 3 0) (Some (DStr "r|g|b")) None; HConcat [0; 0]%nat None; HSet 0 (Some (DStr "x"))] 1%nat /\
  differ [HLoad (SGdal 4 4 3 0) None None; HPrepare 0; HCrop 0 (Some [1]) 4 4; HSet 0 (Some (DStr "r|g|b"))] 1%nat.
Proof.
  assert (D : forall l names, mapR expand l = Ok names -> counts (mkF l false) (Z.of_nat (List.length (List.concat names)))).
  { intros l names H. exists (List.concat names). split; [|reflexivity]. exists names. split; [|reflexivity].
    revert names H. induction l as [|c l IH]; cbn [mapR]; intros names H; [injection H as <-; constructor|].
    apply bind_ok in H as (x & Hx & H). apply bind_ok in H as (xs & Hxs & [= <-]). constructor; [now apply expand_denotes|now apply IH]. }
  assert (D2 : counts (mkF ["a"; "b"]%string false) 2) by (apply (D _ [["a"]; ["b"]]%string); vm_compute; reflexivity).
  assert (D3 : counts (mkF ["r"; "g"; "b"]%string false) 3) by (apply (D _ [["r"]; ["g"]; ["b"]]%string); vm_compute; reflexivity).
  assert (Dx : counts (mkF ["x"; "x"]%string false) 2) by (apply (D _ [["x"]; ["x"]]%string); vm_compute; reflexivity).
  split; [exists (mkF ["a"; "b"]%string false), 3, 2; repeat split; [vm_compute; reflexivity..|exact D2|lia]|].
  split; [exists (mkF ["r"; "g"; "b"]%string false), 2, 3; repeat split; [vm_compute; reflexivity..|exact D3|lia]|].
  split; [exists (mkF ["x"; "x"]%string false), 6, 2; repeat split; [vm_compute; reflexivity..|exact Dx|lia]|].
  exists (mkF ["r"; "g"; "b"]%string false), 1, 3; repeat split; [vm_compute; reflexivity..|exact D3|lia].
Qed.
Print Assumptions C119_agree_refuted.

(* In every history whose calls are honest they agree, for every image. *)
Theorem C119_agree_partial : forall ops, every_call honest [] ops ->
  forall i f, channels (after ops) i = Some f ->
    exists names, denotes_all (codes f) names /\ num_channels (after ops) i = Some (Z.of_nat (List.length names)).
Proof.
  intros ops H i f Hc. assert (Hi : inv (after ops)) by (apply every_inv; [exact I|exact H]).
  destruct (inv_counts _ Hi i f Hc) as (n & Hn & names & Hd & ->). exists names. auto.
Qed.
Print Assumptions C119_agree_partial.
(* An honest history with every kind of call: an image is renamed while others use it. *)
Example C119_case :
  let ops := [HLoad (SGdal 4 4 3 0) (Some (DStr "rgb")) None; HPrepare 0; HCrop 0 (Some [2; 0]) 4 4; HWarp 0 true 8 8;
              HArray 8 8 1 (Some (DStr "z")); HConcat [2; 3]%nat None; HSet 0 (Some (DStr "a:3")); HNans (Some (Some 8, Some 8)) (Some (DInt 2))] in
  every_call honest [] ops /\
  map (fun i => channels (after ops) i) [0; 1; 2; 4]%nat =
    [Some (mkF ["a:3"] false); Some (mkF ["b"; "r"] false); Some (mkF ["a:3"] false); Some (mkF ["a:3"; "z"] false)]%string /\
  map (num_channels (after ops)) [0; 1; 2; 3; 4; 5]%nat = [Some 3; Some 2; Some 3; Some 1; Some 4; Some 2].
Proof.
  split; [|split; vm_compute; reflexivity].
  assert (D : counts (mkF ["a:3"]%string false) 3).
  { exists ["a.0"; "a.1"; "a.2"]%string. split; [|reflexivity]. exists [["a.0"; "a.1"; "a.2"]]%string. split; [|reflexivity]. constructor; [|constructor]. apply expand_denotes. vm_compute. reflexivity. }
  assert (D' : counts (mkF ["rgb"]%string false) 3).
  { exists ["r"; "g"; "b"]%string. split; [|reflexivity]. exists [["r"; "g"; "b"]]%string. split; [|reflexivity]. constructor; [|constructor]. apply expand_denotes. vm_compute. reflexivity. }
  cbn [every_call honest]. repeat match goal with |- _ /\ _ => split end; try exact I.
  - intros f n. cbn. intros [= <- <-]. exists ["z"]%string. split; [|reflexivity]. exists [["z"]]%string. split; [|reflexivity]. constructor; [|constructor]. apply expand_denotes. reflexivity.
  - intros h' f Hs Hc. assert (E : h' = hnext (after [HLoad (SGdal 4 4 3 0) (Some (DStr "rgb")) None; HPrepare 0; HCrop 0 (Some [2; 0]) 4 4; HWarp 0 true 8 8;
              HArray 8 8 1 (Some (DStr "z")); HConcat [2; 3]%nat None]) (HSet 0 (Some (DStr "a:3")))) by (vm_compute in Hs |- *; injection Hs as <-; reflexivity).
    subst h'. vm_compute in Hc. injection Hc as <-. split; [exists 3; split; [vm_compute; reflexivity|exact D]|].
    intros _. exists (mkF ["rgb"]%string false), 3. split; [vm_compute; reflexivity|]. auto.
Qed.

(** * C120: new names reach the images built from an image *)
Lemma names_elsewhere p g h j : (forall k, In k (below h j) -> p k = false) -> channels (update p g h) j = channels h j.
Proof.
  revert j. induction h as [|o h IH]; intros j H; [reflexivity|]. cbn [update].
  destruct (Nat.eq_dec j (List.length h)) as [-> | Ne].
  - cbn [below] in H. rewrite Nat.eqb_refl in H. rewrite (H (List.length h)) by (now left).
    rewrite channels_top. rewrite <- (update_length p g h), channels_top.
    destruct (o_kind o) as [| | |s|ps]; try reflexivity.
    + rewrite IH; [reflexivity|]. intros k Hk. apply H. now right.
    + assert (A : forall qs, (forall q, In q qs -> In q ps) -> all_names (update p g h) qs = all_names h qs); [|now apply A].
      induction qs as [|q qs IHq]; intros Hq; [reflexivity|]. cbn [all_names]. rewrite IHq by (intros; apply Hq; now right). rewrite IH; [reflexivity|].
      intros k Hk. apply H. right. apply in_concat. exists (below h q). split; [apply in_map; apply Hq; now left|exact Hk].
  - destruct (Nat.lt_ge_cases j (List.length h)) as [Lt | Ge].
    + rewrite !channels_low by (rewrite ?update_length; exact Lt). apply IH. intros k Hk. apply H. cbn [below]. now rewrite (proj2 (Nat.eqb_neq _ _)).
    + rewrite !channels_out; [reflexivity|cbn; lia|cbn; rewrite update_length; lia].
Qed.

Lemma get_update p g h j : get_obj (update p g h) j = option_map (fun o => if p j then g o else o) (get_obj h j).
Proof.
  induction h as [|o h IH]; [destruct j; reflexivity|]. cbn [update].
  destruct (Nat.eq_dec j (List.length h)) as [-> | Ne].
  - rewrite get_top. cbn [option_map]. replace (List.length h) with (List.length (update p g h)) at 2 by apply update_length. now rewrite get_top.
  - destruct (Nat.lt_ge_cases j (List.length h)) as [Lt | Ge].
    + rewrite !get_low by (rewrite ?update_length; exact Lt). exact IH.
    + assert (N : forall x : heap, (List.length x <= j)%nat -> get_obj x j = None) by (intros x Hx; apply nth_error_None; now rewrite rev_length).
      rewrite !N; [reflexivity|cbn; lia|cbn; rewrite update_length; lia].
Qed.

(* the names an object shows, from the object itself *)
Lemma channels_get h j o : get_obj h j = Some o ->
  match o_kind o with
  | KConcat _ => True
  | KView s => (forall f, o_names o = Some f -> channels h j = Some f) /\ ((s < j)%nat -> o_names o = None -> channels h j = channels h s)
  | _ => channels h j = o_names o
  end.
Proof.
  induction h as [|o' h IH]; intros E; [destruct j; discriminate|].
  destruct (Nat.eq_dec j (List.length h)) as [-> | Ne].
  - rewrite get_top in E. injection E as ->. rewrite channels_top. destruct (o_kind o); try exact I; try reflexivity.
    split; [intros f ->; reflexivity|]. intros Hs ->. now rewrite channels_low.
  - pose proof (get_bound _ _ _ E) as B. cbn in B. rewrite get_low in E by lia. specialize (IH E).
    rewrite (channels_low o' h j) by lia. destruct (o_kind o); try exact IH. destruct IH as (I1 & I2). split; [exact I1|].
    intros Hs Hn. rewrite (channels_low o' h) by lia. now apply I2.
Qed.

(* objects refer to older objects only *)
Definition older (h : heap) : Prop := forall i o s, get_obj h i = Some o -> refers o s -> (s < i)%nat.
Lemma older_cons h o : older h -> (forall s, refers o s -> (s < List.length h)%nat) -> older (o :: h).
Proof.
  intros H Ho i o' s E Hs. destruct (Nat.eq_dec i (List.length h)) as [-> | Ne]; [rewrite get_top in E; injection E as <-; now apply Ho|].
  pose proof (get_bound _ _ _ E) as B. cbn in B. rewrite get_low in E by lia. eapply H; eassumption.
Qed.
Lemma older_update h p g : older h -> (forall o, o_kind (g o) = o_kind o) -> older (update p g h).
Proof.
  intros H Hk i o s E Hs. rewrite get_update in E. destruct (get_obj h i) as [o'|] eqn:Eo; [|discriminate]. cbn in E. injection E as <-.
  apply (H i o' s Eo). unfold refers in *. destruct (p i); [now rewrite Hk in Hs|exact Hs].
Qed.
Lemma step_older h op : older h -> older (hnext h op).
Proof.
  intros Hi. unfold hnext. destruct (hstep h op) as [h'|] eqn:E; [|exact Hi].
  assert (V : forall i f n d, (i <? List.length h)%nat = true -> older (mkO (KView i) f n d None :: h)).
  { intros i f n d El. apply older_cons; [exact Hi|]. unfold refers. cbn. intros s ->. now apply Nat.ltb_lt. }
  assert (L : forall k f n d, (forall s, k <> KView s) -> (forall ps, k <> KConcat ps) -> older (mkO k f n d None :: h)).
  { intros k f n d A B. apply older_cons; [exact Hi|]. unfold refers. cbn. destruct k; try contradiction; [now elim (A sub)|now elim (B parts)]. }
  destruct op as [src ch d|hh ww b ch|d ch|i auto w hh|i ci w hh|i w hh|i|i|ps d|i ch|i]; cbn [hstep] in E.
  - apply bind_ok in E as ([f n] & Hs & [= <-]). apply L; discriminate.
  - apply bind_ok in E as ([f n] & Hs & [= <-]). apply L; discriminate.
  - apply bind_ok in E as ([f n] & Hs & [= <-]). apply L; discriminate.
  - destruct (i <? List.length h)%nat eqn:El; [|discriminate]. destruct (negb auto || full_size (size_of h i))%bool; [|discriminate]. injection E as <-. now apply V.
  - destruct (i <? List.length h)%nat eqn:El; [|discriminate]. destruct (full_size (size_of h i)); [|discriminate].
    apply bind_ok in E as ([f n] & Hs & [= <-]). now apply V.
  - destruct (i <? List.length h)%nat eqn:El; [|discriminate]. destruct (full_size (size_of h i)); [|discriminate]. injection E as <-. now apply V.
  - destruct (i <? List.length h)%nat eqn:El; [|discriminate]. injection E as <-. now apply V.
  - destruct (i <? List.length h)%nat eqn:El; [|discriminate]. injection E as <-. now apply V.
  - destruct (forallb _ ps) eqn:El; [|discriminate]. apply bind_ok in E as (d' & _ & [= <-]). apply older_cons; [exact Hi|].
    unfold refers. cbn. intros s Hs. rewrite forallb_forall in El. apply Nat.ltb_lt. now apply El.
  - destruct (get_obj h i) as [o|] eqn:Eo; [|discriminate].
    destruct o as [[] ? ? ? ?]; try discriminate; apply bind_ok in E as ([f n] & Hs & [= <-]); now apply older_update.
  - destruct (i <? List.length h)%nat eqn:El; [|discriminate]. injection E as <-. apply older_update; [exact Hi|apply prepare_names].
Qed.
Lemma after_older ops : older (after ops).
Proof.
  unfold after. assert (G : forall h, older h -> older (fold_left hnext ops h)); [|apply G; intros i o s E; destruct i; discriminate].
  induction ops as [|op ops IH]; intros h Hh; [exact Hh|]. cbn. apply IH. now apply step_older.
Qed.

(* A selection of bands keeps the names it was made with. *)
Theorem C120_rename_refuted :
  let ops := [HLoad (SGdal 4 4 3 0) (Some (DStr "r|g|b")) None; HPrepare 0; HCrop 0 (Some [1]) 4 4] in
  channels (after ops) 1 = Some (mkF ["g"]%string false) /\
  channels (after (ops ++ [HSet 0 (Some (DStr "x|y|z"))])) 0 = Some (mkF ["x"; "y"; "z"]%string false) /\
  channels (after (ops ++ [HSet 0 (Some (DStr "x|y|z"))])) 1 = Some (mkF ["g"]%string false).
Proof. repeat split; vm_compute; reflexivity. Qed.
Print Assumptions C120_rename_refuted.

(* After any history, i.channels = spec gives these names to i and to every image that shows
   what i shows; a concatenation always has the names its parts have at the time; images
   not built on i keep their names. *)
Theorem C120_rename_partial : forall ops i d f n h', set_meta d = Ok (Some f, n) -> hstep (after ops) (HSet i d) = Ok h' ->
  (forall j, follows (after ops) i j -> channels h' j = Some f) /\
  (forall j o ps, get_obj h' j = Some o -> o_kind o = KConcat ps ->
     match channels h' j with
     | Some g => exists gs, Forall2 (fun p g => channels h' p = Some g) ps gs /\ codes g = List.concat (map codes gs)
     | None => exists p, In p ps /\ channels h' p = None
     end) /\
  (forall j, ~ In i (below (after ops) j) -> channels h' j = channels (after ops) j).
Proof.
  intros ops i d f n h' Hd Hs. pose proof (after_older ops) as Hold.
  assert (Hold' : older h') by (pose proof (step_older (after ops) (HSet i d) Hold) as K; unfold hnext in K; now rewrite Hs in K).
  remember (after ops) as h eqn:Eh. clear Eh. cbn [hstep] in Hs.
  destruct (get_obj h i) as [o|] eqn:Eo; [|discriminate].
  assert (Hk : match o_kind o with KConcat _ => False | _ => True end) by (destruct o as [[] ? ? ? ?]; try exact I; discriminate).
  assert (E' : ('(f, n) <- set_meta d ;; Ok (rename i f n h)) = Ok h') by (destruct o as [[] ? ? ? ?]; try exact Hs; destruct Hk).
  rewrite Hd in E'. cbn in E'. injection E' as <-. unfold rename in *.
  set (g0 := fun o : obj => mkO (o_kind o) (Some f) n (o_size o) (o_overviews o)) in *.
  split; [|split].
  - intros j Hj. induction Hj as [|j s o' Ej Ek En Hf IH].
    + pose proof (channels_get (update (Nat.eqb i) g0 h) i (g0 o)) as K. rewrite get_update, Eo in K. cbn [option_map] in K. rewrite Nat.eqb_refl in K.
      specialize (K eq_refl). cbn in K. destruct (o_kind o); try exact K; [now apply K|destruct Hk].
    + destruct (Nat.eq_dec i j) as [<- | Ne].
      * pose proof (channels_get (update (Nat.eqb i) g0 h) i (g0 o)) as K. rewrite get_update, Eo in K. cbn [option_map] in K. rewrite Nat.eqb_refl in K.
        specialize (K eq_refl). cbn in K. destruct (o_kind o); try exact K; [now apply K|destruct Hk].
      * pose proof (channels_get (update (Nat.eqb i) g0 h) j o') as K. rewrite get_update, Ej in K. cbn [option_map] in K. rewrite (proj2 (Nat.eqb_neq _ _)) in K by assumption.
        specialize (K eq_refl). rewrite Ek in K. destruct K as (_ & K). rewrite K; [exact IH| |exact En].
        apply (Hold j o' s Ej). unfold refers. now rewrite Ek.
  - intros j o' ps Ej Ek. remember (update (Nat.eqb i) g0 h) as h1 eqn:E1. clear E1. clear - Ej Ek Hold'.
    assert (A : channels h1 j = all_names h1 ps).
    { assert (Hb : Forall (fun p => p < j)%nat ps) by (apply Forall_forall; intros p Hp; apply (Hold' j o' p Ej); unfold refers; now rewrite Ek).
      clear Hold'. induction h1 as [|o1 h1 IH]; [destruct j; discriminate|].
      assert (L : forall qs, Forall (fun p => p < List.length h1)%nat qs -> all_names (o1 :: h1) qs = all_names h1 qs).
      { induction 1 as [|q qs Hq _ IHq]; [reflexivity|]. cbn [all_names]. now rewrite channels_low, IHq. }
      destruct (Nat.eq_dec j (List.length h1)) as [-> | Ne].
      - rewrite get_top in Ej. injection Ej as ->. rewrite channels_top, Ek. now rewrite L.
      - pose proof (get_bound _ _ _ Ej) as B. cbn in B. rewrite get_low in Ej by lia. rewrite channels_low by lia. rewrite IH by exact Ej. symmetry. apply L.
        eapply Forall_impl; [|exact Hb]. cbn. intros. lia. }
    rewrite A. clear. induction ps as [|p ps IH]; cbn [all_names]; [exists []; split; [constructor|reflexivity]|].
    destruct (channels h1 p) as [g|] eqn:Eg; [|exists p; split; [now left|exact Eg]].
    destruct (all_names h1 ps) as [r|].
    + destruct IH as (gs & F & Er). exists (g :: gs). split; [now constructor|]. cbn. now rewrite app_nil_r, Er.
    + destruct IH as (q & Hq & Eq). exists q. split; [now right|exact Eq].
  - intros j Hj. apply names_elsewhere. intros k Hk'. apply Nat.eqb_neq. congruence.
Qed.
Print Assumptions C120_rename_partial.
Example C120_case :
  let ops := [HLoad (SGdal 4 4 3 0) (Some (DStr "r|g|b")) None; HPrepare 0; HWarp 0 true 8 8; HCrop 1 None 8 8; HArray 8 8 1 (Some (DStr "z")); HConcat [2; 3]%nat None] in
  follows (after ops) 0 2 /\ ~ In 0%nat (below (after ops) 3) /\
  channels (after (ops ++ [HSet 0 (Some (DStr "x|y|z"))])) 2 = Some (mkF ["x"; "y"; "z"]%string false) /\
  channels (after (ops ++ [HSet 0 (Some (DStr "x|y|z"))])) 4 = Some (mkF ["x"; "y"; "z"; "z"]%string false) /\
  channels (after (ops ++ [HSet 0 (Some (DStr "x|y|z"))])) 3 = Some (mkF ["z"]%string false).
Proof.
  split; [|split; [vm_compute; intuition discriminate|repeat split; vm_compute; reflexivity]].
  eapply follows_view; [vm_compute; reflexivity|reflexivity|reflexivity|]. eapply follows_view; [vm_compute; reflexivity|reflexivity|reflexivity|]. constructor.
Qed.

(** * C121: prepare() makes the shape known *)
(* what prepare() will know *)
Fixpoint sizable (h : heap) (i : nat) : bool :=
  match h with
  | [] => false
  | o :: h' =>
      if Nat.eqb i (List.length h') then
        match o_kind o, o_size o with KLoad _, _ => true | KView s, None => sizable h' s | _, d => full_size d end
      else sizable h' i
  end.
Fixpoint countable (h : heap) (i : nat) : bool :=
  match h with
  | [] => false
  | o :: h' =>
      if Nat.eqb i (List.length h') then
        match o_kind o, o_num o with KLoad _, _ => true | KView s, None => countable h' s | _, n => is_some n end
      else countable h' i
  end.

Lemma load_size src d n ov : full_size (m_dsize (load_metadata src (mkM d n ov))) = true.
Proof.
  unfold load_metadata. cbn [m_dsize m_channels m_overviews]. destruct (_ && full_size d)%bool eqn:E; [apply andb_true_iff in E; apply E|].
  destruct src as [? ? ? ?|? ? []]; cbn; destruct (full_size d) eqn:Ed; auto.
Qed.
Lemma load_num src d n ov : is_some (m_channels (load_metadata src (mkM d n ov))) = true.
Proof.
  destruct n as [n|]; [now rewrite load_keeps|].
  unfold load_metadata. cbn [m_dsize m_channels m_overviews is_some]. rewrite andb_false_r. destruct src as [? ? ? ?|? ? []]; reflexivity.
Qed.
Lemma load_size_keeps src d n ov : full_size d = true -> m_dsize (load_metadata src (mkM d n ov)) = d.
Proof.
  intros H. unfold load_metadata. cbn [m_dsize m_channels m_overviews]. destruct (_ && full_size d)%bool; [reflexivity|].
  destruct src as [? ? ? ?|? ? []]; cbn; now rewrite H.
Qed.

Lemma prepared p h : forall i, (forall k, In k (below h i) -> p k = true) ->
  full_size (size_of (update p prepare_obj h) i) = sizable h i /\ is_some (num_channels (update p prepare_obj h) i) = countable h i.
Proof.
  induction h as [|o h IH]; intros i H; [split; reflexivity|]. cbn [update size_of num_channels sizable countable below] in *. rewrite update_length.
  destruct (Nat.eq_dec i (List.length h)) as [Ei | Ne]; [subst i; rewrite Nat.eqb_refl in *|rewrite (proj2 (Nat.eqb_neq _ _)) in * by assumption; now apply IH].
  rewrite (H (List.length h)) by (now left). unfold prepare_obj. destruct (o_kind o) as [src| | |s|ps] eqn:Ek; cbn; rewrite ?Ek.
  - rewrite load_size. pose proof (load_num src (o_size o) (o_num o) (o_overviews o)) as L. destruct (m_channels _); [auto|discriminate].
  - auto.
  - auto.
  - destruct (IH s) as (I1 & I2); [intros k Hk; apply H; now right|]. split; [destruct (o_size o); [reflexivity|exact I1]|destruct (o_num o); [reflexivity|exact I2]].
  - auto.
Qed.

Lemma set_meta_num d f n : d <> None -> set_meta d = Ok (f, n) -> is_some n = true.
Proof.
  intros Hd H. assert (G : forall d', (f <- coerce_fresh d' ;; nf <- normalize f ;; n <- numel nf ;; Ok (Some f, Some n)) = Ok (f, n) -> is_some n = true).
  { intros d' K. apply bind_ok in K as (? & _ & K). apply bind_ok in K as (? & _ & K). apply bind_ok in K as (? & _ & [= <- <-]). reflexivity. }
  destruct d as [d|]; [|now contradiction Hd]. destruct d; try exact (G _ H); cbn in H; injection H as <- <-; reflexivity.
Qed.

Lemma grow P (h : heap) o : (forall i, (i < List.length h)%nat -> sizable h i = true /\ countable h i = true) ->
  sizable (o :: h) (List.length h) = true -> countable (o :: h) (List.length h) = true -> P = (o :: h) ->
  forall i, (i < List.length P)%nat -> sizable P i = true /\ countable P i = true.
Proof.
  intros H A B -> i Hi. destruct (Nat.eq_dec i (List.length h)) as [-> | Ne]; [auto|]. cbn [sizable countable List.length] in *.
  rewrite (proj2 (Nat.eqb_neq _ _)) by assumption. apply H. lia.
Qed.


Lemma step_knows h op : (forall i, (i < List.length h)%nat -> sizable h i = true /\ countable h i = true) -> careful h op ->
  forall i, (i < List.length (hnext h op))%nat -> sizable (hnext h op) i = true /\ countable (hnext h op) i = true.
Proof.
  intros Hh Hc. unfold hnext. destruct (hstep h op) as [h'|] eqn:E; [|exact Hh].
  destruct op as [src ch d|hh ww b ch|d ch|i auto w hh|i ci w hh|i w hh|i|i|ps d|i ch|i]; cbn [hstep] in E; cbn [careful] in Hc.
  - apply bind_ok in E as ([f n] & Hs & [= <-]). eapply grow; [exact Hh| | |reflexivity]; cbn; now rewrite Nat.eqb_refl.
  - apply bind_ok in E as ([f n] & Hs & [= <-]). eapply grow; [exact Hh| | |reflexivity]; cbn; now rewrite Nat.eqb_refl.
  - apply bind_ok in E as ([f n] & Hs & [= <-]). destruct Hc as (Hd & Hn). eapply grow; [exact Hh| | |reflexivity]; cbn; rewrite Nat.eqb_refl; [exact Hd|].
    now apply (set_meta_num ch f).
  - destruct (i <? List.length h)%nat eqn:El; [|discriminate]. destruct (negb auto || full_size (size_of h i))%bool; [|discriminate]. injection E as <-. apply Nat.ltb_lt in El.
    eapply grow; [exact Hh| | |reflexivity]; cbn; rewrite Nat.eqb_refl; [reflexivity|]. now apply Hh.
  - destruct (i <? List.length h)%nat eqn:El; [|discriminate]. destruct (full_size (size_of h i)); [|discriminate]. apply Nat.ltb_lt in El.
    apply bind_ok in E as ([f n] & Hs & [= <-]). eapply grow; [exact Hh| | |reflexivity]; cbn; rewrite Nat.eqb_refl; [reflexivity|].
    destruct n; [reflexivity|]. now apply Hh.
  - destruct (i <? List.length h)%nat eqn:El; [|discriminate]. destruct (full_size (size_of h i)); [|discriminate]. injection E as <-. apply Nat.ltb_lt in El.
    eapply grow; [exact Hh| | |reflexivity]; cbn; rewrite Nat.eqb_refl; [reflexivity|]. now apply Hh.
  - destruct (i <? List.length h)%nat eqn:El; [|discriminate]. injection E as <-. apply Nat.ltb_lt in El.
    eapply grow; [exact Hh| | |reflexivity]; cbn; rewrite Nat.eqb_refl; [|now apply Hh]. destruct Hc as [-> | Hc]; [now apply Hh|]. destruct (size_of h i); [exact Hc|discriminate].
  - destruct (i <? List.length h)%nat eqn:El; [|discriminate]. injection E as <-. apply Nat.ltb_lt in El.
    eapply grow; [exact Hh| | |reflexivity]; cbn; rewrite Nat.eqb_refl; now apply Hh.
  - destruct (forallb _ ps) eqn:El; [|discriminate]. apply bind_ok in E as (d' & Hd & [= <-]). destruct Hc as (Hc & Hn).
    eapply grow; [exact Hh| | |reflexivity]; cbn; rewrite Nat.eqb_refl.
    + destruct Hc as [Hc | (-> & Hne & Hf)]; [destruct d; [injection Hd as <-; exact Hc|discriminate]|].
      destruct ps as [|p ps]; [now contradiction Hne|]. apply Forall_inv in Hf. unfold common_size in Hd. cbn [map] in Hd.
      match type of Hd with (if ?b then _ else _) = _ => destruct b; [|discriminate] end. injection Hd as <-. exact Hf.
    + clear -Hn. induction Hn as [|p ps Hp _ IH]; [reflexivity|]. cbn. destruct (num_channels h p); [|congruence]. destruct (sum_num _); [reflexivity|discriminate].
  - destruct (get_obj h i) as [o|] eqn:Eo; [|discriminate].
    assert (E' : ('(f, n) <- set_meta ch ;; Ok (rename i f n h)) = Ok h') by (destruct o as [[] ? ? ? ?]; try exact E; discriminate).
    apply bind_ok in E' as ([f n] & Hs & [= <-]). pose proof (set_meta_num ch f n Hc Hs) as Hn. clear - Hh Hn.
    assert (G : forall j, sizable (rename i f n h) j = sizable h j /\ (countable h j = true -> countable (rename i f n h) j = true)).
    { clear Hh. induction h as [|o h IH]; intros j; [split; [reflexivity|discriminate]|]. unfold rename in *. cbn [update sizable countable]. rewrite update_length.
      destruct (Nat.eqb_spec j (List.length h)) as [-> | Ne]; [|apply IH]. destruct (Nat.eqb_spec i (List.length h)) as [-> | Ni]; cbn.
      - destruct (o_kind o) as [| | |s|]; cbn; try (split; [reflexivity|intros _; exact Hn || reflexivity]).
        split; [destruct (o_size o); [reflexivity|apply IH]|]. intros _. destruct n; [reflexivity|discriminate].
      - destruct (o_kind o) as [| | |s|]; auto. split; [destruct (o_size o); [reflexivity|apply IH]|]. destruct (o_num o); [auto|apply IH]. }
    intros j Hj. unfold rename in Hj at 1. rewrite update_length in Hj. destruct (Hh j Hj) as (A & B). destruct (G j) as (-> & C). auto.
  - destruct (i <? List.length h)%nat eqn:El; [|discriminate]. injection E as <-. clear - Hh.
    set (p := fun j => existsb (Nat.eqb j) (below h i)). clearbody p.
    assert (G : forall j, sizable (update p prepare_obj h) j = sizable h j /\ countable (update p prepare_obj h) j = countable h j).
    { clear Hh. induction h as [|o h IH]; intros j; [auto|]. cbn [update sizable countable]. rewrite update_length.
      destruct (Nat.eqb j (List.length h)); [|apply IH]. destruct (p (List.length h)).
      - unfold prepare_obj. destruct (o_kind o) as [src| | |s|] eqn:Ek; cbn; rewrite ?Ek; auto. split; [destruct (o_size o)|destruct (o_num o)]; auto; apply IH.
      - destruct (o_kind o) as [src| | |s|]; auto. split; [destruct (o_size o)|destruct (o_num o)]; auto; apply IH. }
    intros j Hj. rewrite update_length in Hj. destruct (G j) as (-> & ->). now apply Hh.
Qed.

(* A concatenation of files that were not prepared, and a dequantized file whose size was
   given as (None, None), stay without shape. *)
Theorem C121_prepare_refuted :
  let ops := [HLoad (SGdal 4 6 3 0) None None; HConcat [0; 0]%nat None; HPrepare 1] in
  size_of (after ops) 0 = Some (Some 6, Some 4) /\ size_of (after ops) 1 = None /\ num_channels (after ops) 1 = None /\
  size_of (after [HLoad (SGdal 4 6 3 0) None (Some (None, None)); HDequant 0; HPrepare 1]) 1 = Some (None, None).
Proof. repeat split; vm_compute; reflexivity. Qed.
Print Assumptions C121_prepare_refuted.

(* In careful histories it does, for every image; and in all histories it raises nothing and
   keeps what was known of any image. *)
Theorem C121_prepare_partial : forall ops i, (i < List.length (after ops))%nat -> exists h', hstep (after ops) (HPrepare i) = Ok h' /\
  (every_call careful [] ops -> (exists w h n, size_of h' i = Some (Some w, Some h) /\ num_channels h' i = Some n)) /\
  forall j, channels h' j = channels (after ops) j /\
    (full_size (size_of (after ops) j) = true -> size_of h' j = size_of (after ops) j) /\
    (forall n, num_channels (after ops) j = Some n -> num_channels h' j = Some n).
Proof.
  intros ops i Hi. pose proof Hi as Hi'. apply Nat.ltb_lt in Hi'. eexists. split; [cbn [hstep]; rewrite Hi'; reflexivity|]. split; [|intros j; split; [apply prepare_channels|]].
  - intros H. assert (K : forall i, (i < List.length (after ops))%nat -> sizable (after ops) i = true /\ countable (after ops) i = true).
    { clear -H. unfold after. assert (G : forall h, (forall i, (i < List.length h)%nat -> sizable h i = true /\ countable h i = true) -> every_call careful h ops ->
        forall i, (i < List.length (fold_left hnext ops h))%nat -> sizable (fold_left hnext ops h) i = true /\ countable (fold_left hnext ops h) i = true).
      { clear H. induction ops as [|op ops IH]; intros h Hh Hc; [exact Hh|]. destruct Hc as (H1 & H2). cbn [fold_left]. apply IH; [|exact H2]. now apply step_knows. }
      apply G; [cbn; lia|exact H]. }
    destruct (K i Hi) as (A & B).
    destruct (prepared (fun j => existsb (Nat.eqb j) (below (after ops) i)) (after ops) i) as (P1 & P2).
    { intros k Hk. apply existsb_exists. exists k. split; [exact Hk|apply Nat.eqb_refl]. }
    rewrite A in P1. rewrite B in P2. destruct (size_of _ i) as [[[w|] [h|]]|]; try discriminate. destruct (num_channels _ i) as [n|]; [|discriminate]. eauto.
  - set (p := fun k => existsb (Nat.eqb k) (below (after ops) i)). clearbody p. generalize (after ops). intros h. clear. revert j.
    induction h as [|o h IH]; intros j; [split; [reflexivity|discriminate]|]. cbn [update size_of num_channels]. rewrite update_length.
    destruct (Nat.eqb j (List.length h)); [|apply IH]. destruct (p (List.length h)).
    + unfold prepare_obj. destruct (o_kind o) as [src| | |s|] eqn:Ek; cbn; rewrite ?Ek; auto.
      * split; [apply load_size_keeps|]. intros n ->. apply load_keeps.
      * destruct (IH s) as (I1 & I2). split; [destruct (o_size o)|destruct (o_num o)]; auto.
    + destruct (o_kind o) as [src| | |s|]; auto. destruct (IH s) as (I1 & I2). split; [destruct (o_size o)|destruct (o_num o)]; auto.
Qed.
Print Assumptions C121_prepare_partial.
Example C121_case :
  let ops := [HLoad (SGdal 4 6 3 0) None None; HDequant 0; HPrepare 0; HArray 4 6 1 None; HConcat [1; 2]%nat None; HXarray 3;
              HLoad (SPlain 5 5 None) None (Some (None, None)); HXarray 5] in
  every_call careful [] ops /\ size_of (after ops) 4 = Some (Some 6, Some 4) /\ num_channels (after ops) 4 = Some 4 /\
  size_of (after ops) 6 = Some (None, None) /\ size_of (after (ops ++ [HPrepare 6])) 6 = Some (Some 5, Some 5).
Proof.
  split; [|repeat split; vm_compute; reflexivity]. cbn [every_call careful]. repeat match goal with |- _ /\ _ => split end; try exact I.
  - left. reflexivity.
  - right. split; [reflexivity|]. split; [discriminate|]. repeat constructor.
  - repeat constructor; vm_compute; discriminate.
Qed.

(** * C122: xarray labels *)
(* The labels are the codes as written, so a code for several bands makes finalize() fail,
   one with a slice gives the wrong label, and a two-dimensional array without names fails. *)
Theorem C122_labels_refuted :
  let h := after [HArray 4 4 3 (Some (DStr "rgb")); HArray 4 4 1 (Some (DStr "a:1")); HArray 4 4 1 None] in
  xarray_labels h 0 (Some 3) = Err ValueError /\
  (xarray_labels h 1 (Some 1) = Ok (Some ["a:1"]%string) /\ denotes_all ["a:1"]%string ["a.0"]%string) /\
  xarray_labels h 2 None = Err ValueError.
Proof.
  split; [reflexivity|]. split; [|reflexivity]. split; [reflexivity|]. exists [["a.0"]]%string. split; [|reflexivity].
  constructor; [|constructor]. apply expand_denotes. vm_compute. reflexivity.
Qed.
Print Assumptions C122_labels_refuted.
(* With plain names every band is labelled with its name, and an unnamed image with bands has
   no labels; a two-dimensional array counts as one band. *)
Theorem C122_labels_partial : forall h i,
  (forall f, channels h i = Some f -> Forall atomic (codes f) ->
     forall names, denotes_all (codes f) names ->
       xarray_labels h i (Some (Z.of_nat (List.length names))) = Ok (Some names) /\
       (List.length names = 1%nat -> xarray_labels h i None = Ok (Some names)) /\
       (forall n, n <> Z.of_nat (List.length names) -> xarray_labels h i (Some n) = Err ValueError)) /\
  (channels h i = None -> forall n, xarray_labels h i (Some n) = Ok None).
Proof.
  intros h i. split.
  - intros f Hc Ha names Hd. assert (E : names = codes f).
    { destruct Hd as (ls & F & ->). pose proof (Forall2_denotes_atoms _ Ha) as F'. rewrite <- (concat_singletons (codes f)). f_equal.
      clear -F F'. revert F'. generalize (map (fun c : string => [c]) (codes f)). revert ls F. induction (codes f) as [|c cs IH]; intros ls F l F'; inversion F; inversion F'; subst; [reflexivity|].
      f_equal; [eapply denotes_functional; eassumption|now apply IH]. }
    subst names. unfold xarray_labels. rewrite Hc, Z.eqb_refl. split; [reflexivity|]. split.
    + intros ->. reflexivity.
    + intros n Hn. now rewrite (proj2 (Z.eqb_neq _ _)) by congruence.
  - intros Hc n. unfold xarray_labels. now rewrite Hc.
Qed.
Print Assumptions C122_labels_partial.
Example C122_case : let h := after [HArray 4 4 3 (Some (DStr "r|g|b")); HWarp 0 true 8 8] in
  xarray_labels h 1 (Some 3) = Ok (Some ["r"; "g"; "b"]%string) /\ Forall atomic ["r"; "g"; "b"]%string.
Proof. split; [reflexivity|]. repeat constructor; cbn; intuition discriminate. Qed.
