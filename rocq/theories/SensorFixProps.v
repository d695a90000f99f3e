(* C152: concise() of an already concise sensorchan spec. *)
From Verif Require Import Py PyProofs ChanModel ChanSpec ChanProofs SensorModel SensorSpec SensorProofs SensorStreamProofs SensorConciseProofs SensorFixProofs.
From Coq Require Import Permutation.
Local Open Scope string_scope.

(* the (sensor, channel names) pairs of the streams of a spec, in order *)
Definition says (s : string) (l : list (string * list string)) : Prop :=
  exists sts, streams (SText s) = Ok sts /\ Forall2 (fun st p => stream_is st (fst p) (snd p)) sts l.
(* each stream has a channel, and indices are written without leading zeros *)
Definition ordinary (l : list (string * list string)) : Prop :=
  forall sensor names, In (sensor, names) l -> names <> [] /\ Forall canonical names.

Definition named_of (p : string * group) : string * list string := (fst p, names_of' (gnames (snd p))).

Lemma says_written s l : says s l -> exists t, wf t /\ s = text t /\ l = map named_of (written t).
Proof.
  intros (sts & H & F). pose proof (streams_ok _ _ H) as (_ & Hok). apply streams_inv in H as (t & Hw & Ht & ->). cbn in Ht. subst s.
  exists t. split; [exact Hw|]. split; [reflexivity|]. revert Hok l F. generalize (written t). clear. intros w Hok l F.
  revert l F. induction w as [|[s g] w IH]; intros l F; inversion F as [|? p ? ? H1 H2]; subst; [reflexivity|].
  cbn [map]. inversion Hok as [|? ? O1 O2]; subst. rewrite (IH O2 _ H2). f_equal. destruct p as [s' n]. cbn [fst snd] in *.
  destruct (stream_is_names _ _ _ O1 H1) as (-> & ->). reflexivity.
Qed.
Lemma written_says t : wf t -> says (text t) (map named_of (written t)).
Proof.
  intros Hw. exists (map st_of (written t)). assert (H : streams (SText (text t)) = Ok (map st_of (written t))) by now apply streams_text.
  split; [exact H|]. pose proof (streams_ok _ _ H) as (_ & Hok). revert Hok. generalize (written t). clear. induction l as [|p l IH]; intros Hok; cbn; constructor.
  - inversion Hok; subst. now apply stream_okst_is.
  - apply IH. now inversion Hok.
Qed.
Lemma ordinary_plain t : wf t -> (ordinary (map named_of (written t)) <-> plain t).
Proof.
  intros Hw. pose proof (written_wf _ Hw) as W. rewrite Forall_forall in W. split.
  - intros H s g K. destruct (W _ K) as (_ & Hg). cbn [snd] in Hg. destruct (H s (names_of' (gnames g))) as (H1 & H2); [apply in_map_iff; exists (s, g); auto|].
    split; [|exact H2]. intros E. apply H1. exact (proj2 (names_of'_nil _ (gnames_nm _ Hg)) E).
  - intros H s n K. apply in_map_iff in K as ([s' g] & E & K). injection E as <- <-. destruct (W _ K) as (_ & Hg). cbn [snd] in *. destruct (H _ _ K) as (H1 & H2).
    split; [|exact H2]. intros E. apply H1. exact (proj1 (names_of'_nil _ (gnames_nm _ Hg)) E).
Qed.
Lemma nodup_via {A B C} (f : A -> B) (g : A -> C) l : (forall x y, In x l -> In y l -> g x = g y -> f x = f y) -> NoDup (map f l) -> NoDup (map g l).
Proof.
  intros H. induction l as [|x l IH]; cbn; intros N; [constructor|]. inversion N as [|? ? N1 N2]; subst. constructor; [|apply IH; [intros; apply H; cbn; auto|exact N2]].
  intros K. apply in_map_iff in K as (y & E & K). apply N1. apply in_map_iff. exists y. split; [apply H; cbn; auto|exact K].
Qed.
Lemma distinct_kvs t : wf t -> plain t -> (NoDup (map named_of (written t)) <-> NoDup (kvs_of t)).
Proof.
  intros Hw Hp. pose proof (written_wf _ Hw) as W. rewrite Forall_forall in W. split; apply nodup_via; intros [s g] [s' g'] H H'; cbn [fst snd named_of].
  - intros E. injection E as E ->. destruct (W _ H) as (_ & G). destruct (W _ H') as (_ & G'). cbn [snd] in G, G'. destruct (Hp _ _ H) as (P1 & P2). destruct (Hp _ _ H') as (P1' & P2').
    unfold named_of. cbn [fst snd]. f_equal. destruct (cg_stable _ G P1 P2) as (h & S & T & N). destruct (cg_stable _ G' P1' P2') as (h' & S' & T' & N').
    rewrite <- N, <- N'. do 2 f_equal. apply text_group_inj; [apply S|apply S'|congruence].
  - intros E. injection E as -> E. destruct (W _ H) as (_ & G). destruct (W _ H') as (_ & G'). cbn [snd] in G, G'. f_equal. f_equal. now apply cg_names.
Qed.

(** concise() of a spec with one stream written twice: "(S):a", then "S:a" *)
Theorem C152_idempotent_refuted :
  ~ (forall s l s', says s l -> ordinary l -> concise_sensor_chan s = Ok s' -> concise_sensor_chan s' = Ok s').
Proof.
  intros H. specialize (H "S:a,S:a" [("S", ["a"]); ("S", ["a"])] "(S):a").
  assert (E : concise_sensor_chan "(S):a" = Ok "(S):a"); [|vm_compute in E; discriminate]. apply H.
  - destruct (written_says [WithSensor (OneSensor "S") (Some (OneGroup [Single "a"])); WithSensor (OneSensor "S") (Some (OneGroup [Single "a"]))]) as (sts & H1 & H2).
    + split; [discriminate|]. assert (X : wf_item (WithSensor (OneSensor "S") (Some (OneGroup [Single "a"])))); [|auto].
      split; [reflexivity|]. split; [discriminate|]. repeat constructor.
    + exists sts. split; [exact H1|exact H2].
  - intros s n [E|[E|[]]]; injection E as <- <-; (split; [discriminate|]); (apply Forall_cons; [left; reflexivity|constructor]).
  - vm_compute. reflexivity.
Qed.
Print Assumptions C152_idempotent_refuted.

(** concise() writes every stream once *)
Theorem C152_once : forall s l, says s l -> ordinary l ->
  exists s' l', concise_sensor_chan s = Ok s' /\ says s' l' /\ NoDup l' /\ forall p, In p l' <-> In p l.
Proof.
  intros s l H Ho. destruct (says_written _ _ H) as (t & Hw & -> & ->). pose proof (proj1 (ordinary_plain t Hw) Ho) as Hp.
  destruct (concise_once t Hw Hp) as (t' & Hw' & E & N & _). exists (text t'), (map named_of (written t')). split; [exact E|]. split; [now apply written_says|].
  assert (I : forall p, In p (map named_of (written t')) <-> In p (map named_of (written t))).
  { assert (C : forall t, wf t -> forall s n, has_stream (map st_of (written t)) s n <-> In (s, n) (map named_of (written t))).
    { clear. intros t Hw s n. assert (S : streams (SText (text t)) = Ok (map st_of (written t))) by now apply streams_text.
      pose proof (streams_ok _ _ S) as (_ & Hok). rewrite Forall_forall in Hok. split.
      - intros (st & K & Hs). pose proof (Hok _ K) as O. destruct (stream_is_names _ _ _ O Hs) as (-> & ->). apply in_map_iff in K as (p & <- & K). apply in_map_iff. exists p. auto.
      - intros K. apply in_map_iff in K as ([s' g] & E & K). injection E as <- <-. exists (st_of (s', g)). split; [now apply in_map|].
        apply (stream_okst_is (st_of (s', g))). apply Hok. now apply in_map. }
    intros [s n]. rewrite <- !C by assumption. destruct (concise_keeps_gen t Hw) as (s2 & sts2 & E2 & S2 & K2).
    - apply full_apart; [exact Hw|]. apply Forall_forall. intros [s2 g2] K. now apply (Hp s2 g2).
    - intros s2 n2 K. apply C in K; [|exact Hw]. now apply (Ho s2 n2).
    - rewrite E in E2. injection E2 as <-. rewrite (streams_text (SText (text t')) t' Hw' eq_refl) in S2. injection S2 as <-. symmetry. apply K2. }
  split; [|exact I]. apply distinct_kvs; [exact Hw'| |exact N]. apply ordinary_plain; [exact Hw'|]. intros s n K. apply I in K. now apply (Ho s n).
Qed.
Print Assumptions C152_once.

(** a spec without repeated streams: concise() of the result changes nothing *)
Theorem C152_idempotent_partial : forall s l, says s l -> ordinary l -> NoDup l ->
  exists s', concise_sensor_chan s = Ok s' /\ concise_sensor_chan s' = Ok s'.
Proof.
  intros s l H Ho Hn. destruct (says_written _ _ H) as (t & Hw & -> & ->). pose proof (proj1 (ordinary_plain t Hw) Ho) as Hp.
  destruct (concise_once t Hw Hp) as (t' & Hw' & E & _ & F). exists (text t'). split; [exact E|]. apply F. now apply distinct_kvs.
Qed.
Print Assumptions C152_idempotent_partial.

(** with repeated streams two calls reach a fixed point *)
Theorem C152_twice : forall s l, says s l -> ordinary l ->
  exists s1 s2, concise_sensor_chan s = Ok s1 /\ concise_sensor_chan s1 = Ok s2 /\ concise_sensor_chan s2 = Ok s2.
Proof.
  intros s l H Ho. destruct (C152_once s l H Ho) as (s1 & l1 & E1 & H1 & N1 & I1).
  destruct (C152_idempotent_partial s1 l1 H1) as (s2 & E2 & E3); [|exact N1|eauto]. intros a n K. apply I1 in K. now apply (Ho a n).
Qed.
Print Assumptions C152_twice.

(* two sensors with common channels, ranges and an unordered list of streams *)
Definition ex_fix : list item :=
  [WithSensor (OneSensor "S2") (Some (OneGroup [Stop "a" "3"; Single "b"])); WithSensor (OneSensor "S1") (Some (OneGroup [Single "c"]));
   WithSensor (OneSensor "S1") (Some (OneGroup [Range ":" "a" "0" "3"; Single "b"])); WithSensor (OneSensor "S2") (Some (OneGroup [Single "c"]))].
Example C152_case :
  says "S2:a:3|b,S1:c,S1:a.0:3|b,S2:c"
       [("S2", ["a.0"; "a.1"; "a.2"; "b"]); ("S1", ["c"]); ("S1", ["a.0"; "a.1"; "a.2"; "b"]); ("S2", ["c"])] /\
  ordinary [("S2", ["a.0"; "a.1"; "a.2"; "b"]); ("S1", ["c"]); ("S1", ["a.0"; "a.1"; "a.2"; "b"]); ("S2", ["c"])] /\
  NoDup [("S2", ["a.0"; "a.1"; "a.2"; "b"]); ("S1", ["c"]); ("S1", ["a.0"; "a.1"; "a.2"; "b"]); ("S2", ["c"])] /\
  concise_sensor_chan "S2:a:3|b,S1:c,S1:a.0:3|b,S2:c" = Ok "(S1,S2):(a:3|b,c)" /\
  concise_sensor_chan "(S1,S2):(a:3|b,c)" = Ok "(S1,S2):(a:3|b,c)".
Proof.
  split; [|split; [|split; [|split; vm_compute; reflexivity]]].
  2: { assert (A : Forall canonical ["a.0"; "a.1"; "a.2"; "b"]).
       { apply Forall_cons; [right; exists "a", 0%Z; split; reflexivity|]. apply Forall_cons; [right; exists "a", 1%Z; split; reflexivity|].
         apply Forall_cons; [right; exists "a", 2%Z; split; reflexivity|]. apply Forall_cons; [left; reflexivity|constructor]. }
       assert (C : Forall canonical ["c"]) by (apply Forall_cons; [left; reflexivity|constructor]).
       intros s n [E|[E|[E|[E|[]]]]]; injection E as <- <-; (split; [discriminate|assumption]). }
  2: { repeat constructor; cbn; intuition congruence. }
  assert (Hw : wf ex_fix) by (split; [discriminate|]; repeat (constructor; [cbn; repeat split; try discriminate; repeat constructor|]); constructor).
  exact (written_says ex_fix Hw).
Qed.
