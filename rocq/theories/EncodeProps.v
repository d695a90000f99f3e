(* Encoding an item into streams and decoding it again (C15, C16, C81). *)
From Verif Require Import Py PyProofs ChanModel ChanSpec ChanProofs EncodeModel EncodeSpec EncodeProofs.
Local Open Scope Z_scope.

(* an item of two entries, "B1|flow.0:3" and "B2|x": one slab per channel *)
Definition ex_groups : list (@group string) :=
  [[("B1", ["b1"]); ("flow.0:3", ["f0"; "f1"; "f2"])]; [("B2", ["b2"]); ("x", ["x"])]]%string.
Definition ex_item : list (string * list string) :=
  [("B1|flow.0:3", ["b1"; "f0"; "f1"; "f2"]); ("B2|x", ["b2"; "x"])]%string.

Lemma ex_item_of : item_of ex_groups ex_item.
Proof.
  split; [reflexivity|]. split.
  - repeat constructor; cbn; try discriminate; eexists; (split; [apply expand_denotes; vm_compute; reflexivity|reflexivity]).
  - vm_compute. repeat constructor; cbn; intuition discriminate.
Qed.

(** C15: encode puts into each stream exactly the data of its components, in
    order; decoding the result returns the data of every component. *)
Theorem C15_encode {X} (gs : list (@group X)) (item : list (string * list X)) (s : string) :
  item_of gs item -> gs <> [] ->
  (forall codes, In codes (read_streams s) ->
     NoDup codes /\ Forall (fun c => exists b, holds gs c b /\ b <> []) codes) ->
  exists out, encode1 (mkC s None) item = Ok out /\
    NoDup (map fst out) /\
    (forall k, In k (map fst out) <-> In k (map (join "|") (read_streams s))) /\
    (forall codes bs, In codes (read_streams s) -> Forall2 (holds gs) codes bs ->
       dict_get (join "|" codes) out = Some (List.concat bs)).
Proof. intros H1 H2 H3. now apply encode1_ok. Qed.
Print Assumptions C15_encode.

Example C15_encode_example :
  encode1 (mkC "x|flow.0:3|B1,B2,B1|B2" None) ex_item
  = Ok [("B1|B2", ["b1"; "b2"]); ("B2", ["b2"]); ("x|flow.0:3|B1", ["x"; "f0"; "f1"; "f2"; "b1"])]%string.
Proof. vm_compute. reflexivity. Qed.

Example C15_encode_hypotheses :
  Forall (fun codes => NoDup codes /\ Forall (fun c => exists b, holds ex_groups c b /\ b <> []) codes)
    (read_streams "x|flow.0:3|B1,B2,B1|B2").
Proof.
  repeat (apply Forall_cons; [split; [repeat constructor; cbn; intuition discriminate|];
    repeat (apply Forall_cons; [eexists; split; [unfold holds; cbn; tauto|discriminate]|]); constructor|]); constructor.
Qed.

Theorem C15_decode {X} (gs : list (@group X)) (item : list (string * list X)) (s : string) :
  item_of gs item -> gs <> [] ->
  (forall codes, In codes (read_streams s) ->
     NoDup codes /\ Forall (fun c => exists b, holds gs c b /\ b <> []) codes) ->
  exists out comps, encode1 (mkC s None) item = Ok out /\ decode (mkC s None) out = Ok comps /\
    (forall c, In c (map fst comps) <-> exists codes, In codes (read_streams s) /\ In c codes) /\
    (forall c b, In c (map fst comps) -> holds gs c b -> dict_get c comps = Some b).
Proof.
  intros H1 H2 H3. destruct (encode1_ok gs item H1 s H2 H3) as (out & Ho & _ & _ & Hd).
  destruct (decode_ok gs item H1 s out) as (comps & Hc & Hk & Hg).
  - intros codes Hc. destruct (H3 codes Hc) as [_ H]. eapply Forall_impl; [|exact H]. intros c (b & Hb & _). eauto.
  - exact Hd.
  - exists out, comps. auto.
Qed.
Print Assumptions C15_decode.

Example C15_decode_example :
  (out <- encode1 (mkC "x|flow.0:3|B1,B2" None) ex_item ;; decode (mkC "x|flow.0:3|B1,B2" None) out)
  = Ok [("x", ["x"]); ("flow.0:3", ["f0"; "f1"; "f2"]); ("B1", ["b1"]); ("B2", ["b2"])]%string.
Proof. vm_compute. reflexivity. Qed.

(* the decoder alone: any dictionary that stacks the components of each stream *)
Theorem C15_decode_stacked {X} (gs : list (@group X)) (item inputs : list (string * list X)) (s : string) :
  item_of gs item ->
  (forall codes, In codes (read_streams s) -> Forall (fun c => exists b, holds gs c b) codes) ->
  (forall codes bs, In codes (read_streams s) -> Forall2 (holds gs) codes bs ->
     dict_get (join "|" codes) inputs = Some (List.concat bs)) ->
  exists comps, decode (mkC s None) inputs = Ok comps /\
    (forall c, In c (map fst comps) <-> exists codes, In codes (read_streams s) /\ In c codes) /\
    (forall c b, In c (map fst comps) -> holds gs c b -> dict_get c comps = Some b).
Proof. intros H1 H2 H3. eapply decode_ok; eassumption. Qed.
Print Assumptions C15_decode_stacked.

Example C15_decode_stacked_example :
  decode (mkC "B1|flow.0:3,B2|x" None) ex_item
  = Ok [("B1", ["b1"]); ("flow.0:3", ["f0"; "f1"; "f2"]); ("B2", ["b2"]); ("x", ["x"])]%string.
Proof. vm_compute. reflexivity. Qed.

(** C16: the same for streams that name a component twice, or name a component
    without channels.  False of the default mode. *)
Definition encode_correct {X} (enc : cspec -> list (string * list X) -> result (list (string * list X)))
    (gs : list (@group X)) item s : Prop :=
  forall out codes bs, enc (mkC s None) item = Ok out ->
    In codes (read_streams s) -> Forall2 (holds gs) codes bs -> dict_get (join "|" codes) out = Some (List.concat bs).

Theorem C16_repeated_refuted :
  ~ (forall (gs : list (@group string)) item s, item_of gs item -> gs <> [] ->
       (forall codes, In codes (read_streams s) -> Forall (fun c => exists b, holds gs c b /\ b <> []) codes) ->
       encode_correct encode1 gs item s).
Proof.
  intros H. set (gs := [[("a", ["A"]); ("b", ["B"])]]%string : list (@group string)).
  set (item := [("a|b", ["A"; "B"])]%string : list (string * list string)).
  assert (Hi : item_of gs item).
  { split; [reflexivity|]. split.
    - repeat constructor; cbn; try discriminate; eexists; (split; [apply expand_denotes; vm_compute; reflexivity|reflexivity]).
    - vm_compute. repeat constructor; cbn; intuition discriminate. }
  assert (Hs : forall codes, In codes (read_streams "a|b|b") -> Forall (fun c => exists b, holds gs c b /\ b <> []) codes).
  { intros codes [<-|[]]. repeat (apply Forall_cons; [eexists; split; [unfold holds; cbn; tauto|discriminate]|]). constructor. }
  assert (Ho : exists out, encode1 (mkC "a|b|b" None) item = Ok out /\ dict_get "a|b|b" out = Some ["A"; "B"]%string)
    by (eexists; split; vm_compute; reflexivity).
  destruct Ho as (out & Ho & Hg).
  specialize (H gs item "a|b|b"%string Hi ltac:(discriminate) Hs out ["a"; "b"; "b"]%string [["A"]; ["B"]; ["B"]]%string Ho).
  cbn in H, Hg. rewrite Hg in H. discriminate H.
  - now left.
  - repeat constructor; unfold holds; cbn; tauto.
Qed.
Print Assumptions C16_repeated_refuted.

Theorem C16_empty_refuted :
  ~ (forall (gs : list (@group string)) item s, item_of gs item -> gs <> [] ->
       (forall codes, In codes (read_streams s) -> NoDup codes /\ Forall (fun c => exists b, holds gs c b) codes) ->
       encode_correct encode1 gs item s).
Proof.
  intros H. set (gs := [[("a", ["A"]); ("z.0:0", []); ("b", ["B"])]]%string : list (@group string)).
  set (item := [("a|z.0:0|b", ["A"; "B"])]%string : list (string * list string)).
  assert (Hi : item_of gs item).
  { split; [reflexivity|]. split.
    - repeat constructor; cbn; try discriminate; eexists; (split; [apply expand_denotes; vm_compute; reflexivity|reflexivity]).
    - vm_compute. repeat constructor; cbn; intuition discriminate. }
  assert (Hs : forall codes, In codes (read_streams "a|b|z.0:0") -> NoDup codes /\ Forall (fun c => exists b, holds gs c b) codes).
  { intros codes [<-|[]]. split; [vm_compute; repeat constructor; cbn; intuition discriminate|].
    repeat (apply Forall_cons; [eexists; unfold holds; cbn; tauto|]). constructor. }
  assert (Ho : exists out, encode1 (mkC "a|b|z.0:0" None) item = Ok out /\ dict_get "a|b|z.0:0" out = Some ["A"]%string)
    by (eexists; split; vm_compute; reflexivity).
  destruct Ho as (out & Ho & Hg).
  specialize (H gs item "a|b|z.0:0"%string Hi ltac:(discriminate) Hs out ["a"; "b"; "z.0:0"]%string [["A"]; ["B"]; []]%string Ho).
  cbn in H, Hg. rewrite Hg in H. discriminate H.
  - now left.
  - repeat constructor; unfold holds; cbn; tauto.
Qed.
Print Assumptions C16_empty_refuted.

(* the other mode has neither defect when every component is one channel name *)
Theorem C16_repeated_partial {X} (gs : list (@group X)) (item : list (string * list X)) (s : string) :
  item_of gs item -> gs <> [] ->
  (forall codes, In codes (read_streams s) -> Forall (fun c => atomic c /\ exists b, holds gs c b) codes) ->
  exists out, encode0 (mkC s None) item = Ok out /\
    NoDup (map fst out) /\
    (forall k, In k (map fst out) <-> In k (map (join "|") (read_streams s))) /\
    (forall codes bs, In codes (read_streams s) -> Forall2 (holds gs) codes bs ->
       dict_get (join "|" codes) out = Some (List.concat bs)).
Proof. apply encode0_ok. Qed.
Print Assumptions C16_repeated_partial.

Example C16_repeated_example :
  encode0 (mkC "x|B1|B1,B2" None) ex_item = Ok [("x|B1|B1", ["x"; "b1"; "b1"]); ("B2", ["b2"])]%string.
Proof. vm_compute. reflexivity. Qed.

(** C81: the two modes of encode give the same streams.  False for components
    that are slices or aliases. *)
Theorem C81_modes_agree_refuted :
  ~ (forall (gs : list (@group string)) item s, item_of gs item -> gs <> [] ->
       (forall codes, In codes (read_streams s) ->
          NoDup codes /\ Forall (fun c => exists b, holds gs c b /\ b <> []) codes) ->
       forall out, encode1 (mkC s None) item = Ok out -> exists out', encode0 (mkC s None) item = Ok out').
Proof.
  intros H.
  assert (Hs : forall codes, In codes (read_streams "flow.0:3|B1") ->
     NoDup codes /\ Forall (fun c => exists b, holds ex_groups c b /\ b <> []) codes).
  { intros codes [<-|[]]. split; [vm_compute; repeat constructor; cbn; intuition discriminate|].
    repeat (apply Forall_cons; [eexists; split; [unfold holds; cbn; tauto|discriminate]|]). constructor. }
  destruct (H ex_groups ex_item "flow.0:3|B1"%string ex_item_of ltac:(discriminate) Hs _ ltac:(vm_compute; reflexivity)) as (out' & E).
  vm_compute in E. discriminate E.
Qed.
Print Assumptions C81_modes_agree_refuted.

Theorem C81_modes_agree_partial {X} (gs : list (@group X)) (item : list (string * list X)) (s : string) :
  item_of gs item -> gs <> [] ->
  (forall codes, In codes (read_streams s) ->
     NoDup codes /\ Forall (fun c => atomic c /\ exists b, holds gs c b /\ b <> []) codes) ->
  exists out0 out1, encode0 (mkC s None) item = Ok out0 /\ encode1 (mkC s None) item = Ok out1 /\
    forall k, dict_get k out0 = dict_get k out1.
Proof.
  intros H1 H2 H3.
  destruct (encode0_ok gs item s H1 H2) as (out0 & E0 & _ & K0 & G0).
  { intros codes Hc. destruct (H3 codes Hc) as [_ H]. eapply Forall_impl; [|exact H]. intros c (Ha & b & Hb & _). eauto. }
  destruct (encode1_ok gs item H1 s H2) as (out1 & E1 & _ & K1 & G1).
  { intros codes Hc. destruct (H3 codes Hc) as [Hn H]. split; [exact Hn|]. eapply Forall_impl; [|exact H]. intros c (Ha & b & Hb). eauto. }
  exists out0, out1. split; [exact E0|]. split; [exact E1|]. intros k.
  destruct (in_dec string_dec k (map (join "|") (read_streams s))) as [Hk|Hk].
  - apply in_map_iff in Hk as (codes & <- & Hc). destruct (H3 codes Hc) as [_ H].
    assert (B : exists bs, Forall2 (holds gs) codes bs).
    { clear -H. induction H as [|c cs (_ & b & Hb & _) H (bs & IH)]; [exists []; constructor|]. exists (b :: bs). now constructor. }
    destruct B as (bs & B). now rewrite (G0 _ _ Hc B), (G1 _ _ Hc B).
  - assert (N0 : dict_get k out0 = None) by (apply dict_get_None; rewrite K0; exact Hk).
    assert (N1 : dict_get k out1 = None) by (apply dict_get_None; rewrite K1; exact Hk). congruence.
Qed.
Print Assumptions C81_modes_agree_partial.

Example C81_modes_agree_example :
  encode0 (mkC "x|B2,B1" None) ex_item = Ok [("x|B2", ["x"; "b2"]); ("B1", ["b1"])]%string /\
  encode1 (mkC "x|B2,B1" None) ex_item = Ok [("B1", ["b1"]); ("x|B2", ["x"; "b2"])]%string.
Proof. split; vm_compute; reflexivity. Qed.
