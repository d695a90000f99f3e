(* Lemmas for SensorFixProps.v: concise() of an already concise sensorchan spec. *)
From Verif Require Import Py PyProofs ChanModel ChanSpec ChanProofs SensorModel SensorSpec SensorProofs SensorStreamProofs SensorConciseProofs.
From Coq Require Import Permutation Sorted.
Local Open Scope string_scope.

(** ** Sorting *)
Definition before (x y : string) : Prop := String.leb x y = true.

Lemma insert_sorted x l : Sorted before l -> Sorted before (insert_str x l).
Proof.
  induction l as [|y l IH]; cbn; intros H; [repeat constructor|]. destruct (String.leb x y) eqn:E.
  - constructor; [exact H|constructor; exact E].
  - inversion H as [|? ? H1 H2]; subst. specialize (IH H1). constructor; [exact IH|].
    assert (Hy : before y x) by (unfold before; destruct (String.leb_total x y); congruence).
    destruct l as [|z l]; cbn; [now constructor|]. destruct (String.leb x z); constructor; [exact Hy|now inversion H2].
Qed.
Lemma sort_sorted l : Sorted before (sort_strs l).
Proof. induction l; cbn; [constructor|now apply insert_sorted]. Qed.
Lemma sorted_sort l : Sorted before l -> sort_strs l = l.
Proof.
  induction 1 as [|x l H IH Hd]; [reflexivity|]. change (sort_strs (x :: l)) with (insert_str x (sort_strs l)). rewrite IH.
  destruct Hd as [|y l Hy]; [reflexivity|]. cbn. now rewrite Hy.
Qed.
Lemma sort_idem l : sort_strs (sort_strs l) = sort_strs l.
Proof. apply sorted_sort, sort_sorted. Qed.
Lemma sort_NoDup l : NoDup l -> NoDup (sort_strs l).
Proof. apply Permutation_NoDup. symmetry. apply sort_strs_perm. Qed.

(** ** Keeping the first occurrences *)
Definition mem (l : list string) (y : string) : bool := existsb (fun x => String.eqb x y) l.
Lemma mem_In l y : mem l y = true <-> In y l.
Proof.
  unfold mem. rewrite existsb_exists. split.
  - intros (x & H & E). apply String.eqb_eq in E. now subst.
  - intros H. exists y. split; [exact H|apply String.eqb_refl].
Qed.
Lemma filter_filter {A} (f g : A -> bool) l : filter f (filter g l) = filter (fun x => f x && g x)%bool l.
Proof. induction l as [|x l IH]; cbn; [reflexivity|]. destruct (g x) eqn:E; cbn; [|now rewrite Bool.andb_false_r]. rewrite Bool.andb_true_r, IH. reflexivity. Qed.
Lemma filter_none {A} (f : A -> bool) l : (forall x, In x l -> f x = false) -> filter f l = [].
Proof. induction l as [|x l IH]; cbn; intros H; [reflexivity|]. rewrite H by auto. apply IH. auto. Qed.
Lemma oset_app a b : oset_of (a ++ b) = (oset_of a ++ filter (fun y => negb (mem a y)) (oset_of b))%list.
Proof.
  induction a as [|x a IH]; cbn [app oset_of].
  - symmetry. apply filter_id. reflexivity.
  - rewrite IH, filter_app, filter_filter. cbn [app]. do 2 f_equal. apply filter_ext. intros y. cbn. now rewrite Bool.negb_orb.
Qed.

(** ** Grouping, with the order of the groups *)
Lemma dict_set_keys {V} k (v : V) d : map fst (dict_set k v d) = if mem (map fst d) k then map fst d else (map fst d ++ [k])%list.
Proof.
  induction d as [|[a b] d IH]; cbn; [reflexivity|]. rewrite (String.eqb_sym a k). destruct (String.eqb k a); cbn; [reflexivity|]. rewrite IH.
  unfold mem. destruct (existsb _ _); reflexivity.
Qed.
Lemma group_keys kvs : map fst (group_items kvs) = oset_of (map fst kvs).
Proof.
  induction kvs as [|[k v] kvs IH] using rev_ind; [reflexivity|]. unfold group_items in *. rewrite fold_left_app. cbn [fold_left fst snd].
  rewrite dict_set_keys, IH, map_app, oset_app. cbn [map fst oset_of filter].
  assert (E : mem (oset_of (map fst kvs)) k = mem (map fst kvs) k).
  { apply Bool.eq_true_iff_eq. rewrite !mem_In. apply oset_of_In. }
  rewrite E. destruct (mem (map fst kvs) k); cbn; [now rewrite app_nil_r|reflexivity].
Qed.
Lemma group_items_eq kvs : group_items kvs = map (fun k => (k, vals k kvs)) (oset_of (map fst kvs)).
Proof.
  rewrite <- group_keys, map_map. rewrite <- (map_id (group_items kvs)) at 1. apply map_ext_in. intros [k l] H.
  apply group_items_In in H as (-> & _). reflexivity.
Qed.

(** ** A list of sensor sets, each with its channels *)
Definition entry := (list string * list string)%type.
Definition product (e : entry) : list (string * string) := flat_map (fun s => map (fun x => (x, s)) (snd e)) (fst e).
Definition etext (e : entry) : string := sp_of (fst e) ++ String ":" (cp_of (snd e)).

Lemma product_keys e : fst e <> [] -> NoDup (snd e) -> oset_of (map fst (product e)) = snd e.
Proof.
  destruct e as [ss cs]. cbn [fst snd]. intros Hs Hn. unfold product. cbn [fst snd]. destruct ss as [|s ss]; [congruence|]. cbn [flat_map].
  rewrite map_app, oset_app, map_map. cbn [fst]. rewrite map_id, oset_of_id by exact Hn.
  rewrite filter_none; [apply app_nil_r|]. intros x Hx. rewrite oset_of_In in Hx. apply in_map_iff in Hx as ((y & s') & <- & Hx).
  apply in_flat_map in Hx as (s2 & _ & Hx). apply in_map_iff in Hx as (z & E & Hz). injection E as <- <-. cbn. apply Bool.negb_false_iff. now apply mem_In.
Qed.
Lemma nodup_app {A} (a b : list A) : NoDup (a ++ b) -> NoDup a /\ NoDup b /\ forall x, In x a -> In x b -> False.
Proof.
  induction a as [|x a IH]; cbn; intros H; [repeat split; [constructor|exact H|tauto]|].
  inversion H as [|? ? H1 H2]; subst. destruct (IH H2) as (N1 & N2 & N3). rewrite in_app_iff in H1.
  repeat split; [constructor; tauto|exact N2|]. intros y [<-|Hy] Hb; [tauto|eauto].
Qed.
Lemma products_keys es : Forall (fun e => fst e <> []) es -> NoDup (List.concat (map snd es)) ->
  oset_of (map fst (flat_map product es)) = List.concat (map snd es).
Proof.
  induction 1 as [|e es He _ IH]; intros Hn; [reflexivity|]. cbn [flat_map map List.concat] in *. rewrite map_app, oset_app.
  apply nodup_app in Hn as (N1 & N2 & N3). rewrite product_keys, IH by assumption. f_equal.
  apply filter_id. intros x Hx. apply Bool.negb_true_iff. destruct (mem (map fst (product e)) x) eqn:E; [|reflexivity]. exfalso.
  apply mem_In in E. apply (N3 x); [|exact Hx]. rewrite <- (product_keys e He N1). now apply oset_of_In.
Qed.

Lemma vals_app k a b : vals k (a ++ b) = (vals k a ++ vals k b)%list.
Proof. unfold vals. now rewrite filter_app, map_app. Qed.
Lemma vals_nil k kvs : ~ In k (map fst kvs) -> vals k kvs = [].
Proof.
  intros H. destruct (vals k kvs) as [|v l] eqn:E; [reflexivity|]. exfalso. apply H.
  assert (K : In v (vals k kvs)) by (rewrite E; now left). apply vals_In in K. apply in_map_iff. exists (k, v). auto.
Qed.
Lemma vals_row x s cs : NoDup cs -> In x cs -> vals x (map (fun y => (y, s)) cs) = [s].
Proof.
  induction 1 as [|y cs Hy _ IH]; [intros []|]. intros Hx. unfold vals. cbn [map filter fst]. destruct (String.eqb_spec y x) as [->|N].
  - cbn [map snd]. f_equal. fold (vals x (map (fun y => (y, s)) cs)). apply vals_nil. rewrite map_map. cbn [fst]. now rewrite map_id.
  - apply IH. destruct Hx; [congruence|assumption].
Qed.
Lemma vals_product x e : NoDup (snd e) -> In x (snd e) -> vals x (product e) = fst e.
Proof.
  destruct e as [ss cs]. cbn [fst snd]. intros Hn Hx. unfold product. cbn [fst snd]. induction ss as [|s ss IH]; [reflexivity|].
  cbn [flat_map]. rewrite vals_app, IH, vals_row by assumption. reflexivity.
Qed.
Lemma product_In e x : In x (map fst (product e)) -> In x (snd e).
Proof.
  intros H. apply in_map_iff in H as ((y & s) & <- & H). apply in_flat_map in H as (s2 & _ & H). apply in_map_iff in H as (z & E & Hz).
  injection E as <- <-. exact Hz.
Qed.
Lemma vals_products es e x : NoDup (List.concat (map snd es)) -> In e es -> In x (snd e) -> vals x (flat_map product es) = fst e.
Proof.
  induction es as [|e' es IH]; [intros _ []|]. cbn [map List.concat flat_map]. intros Hn He Hx. apply nodup_app in Hn as (N1 & N2 & N3).
  rewrite vals_app. destruct He as [->|He].
  - rewrite vals_product by assumption. rewrite vals_nil; [apply app_nil_r|]. intros K. apply (N3 x Hx).
    apply in_map_iff in K as (p & <- & K). apply in_flat_map in K as (e2 & He2 & K). apply in_concat. exists (snd e2). split; [now apply in_map|].
    apply product_In. now apply in_map.
  - rewrite vals_nil; [apply IH; assumption|]. intros K. apply product_In in K. apply (N3 x K). apply in_concat. exists (snd e). split; [now apply in_map|exact Hx].
Qed.
Lemma group_products es : Forall (fun e => fst e <> []) es -> NoDup (List.concat (map snd es)) ->
  group_items (flat_map product es) = flat_map (fun e => map (fun x => (x, fst e)) (snd e)) es.
Proof.
  intros Hs Hn. rewrite group_items_eq, products_keys by assumption.
  assert (G : forall es', incl es' es -> map (fun k => (k, vals k (flat_map product es))) (List.concat (map snd es')) =
                flat_map (fun e => map (fun x => (x, fst e)) (snd e)) es').
  { induction es' as [|e es' IH]; intros Hi; [reflexivity|]. cbn [map List.concat flat_map]. rewrite map_app, IH by (intros y Hy; apply Hi; now right). f_equal.
    apply map_ext_in. intros x Hx. f_equal. apply vals_products; [exact Hn|apply Hi; now left|exact Hx]. }
  apply G, incl_refl.
Qed.
(* the second grouping *)
Lemma rows_keys (es : list (string * list string)) : Forall (fun e => snd e <> []) es -> NoDup (map fst es) ->
  oset_of (map fst (flat_map (fun e => map (fun x => (fst e, x)) (snd e)) es)) = map fst es.
Proof.
  induction 1 as [|[k cs] es He _ IH]; cbn [map fst snd flat_map] in *; intros Hn; [reflexivity|]. inversion Hn as [|? ? N1 N2]; subst.
  rewrite map_app, oset_app, map_map, IH by exact N2. cbn [fst].
  assert (E : oset_of (map (fun _ : string => k) cs) = [k]).
  { destruct cs as [|c cs]; [congruence|]. cbn [map oset_of]. f_equal. apply filter_none. intros y Hy. rewrite oset_of_In in Hy.
    apply in_map_iff in Hy as (? & <- & _). now rewrite String.eqb_refl. }
  rewrite E. cbn [app]. f_equal. apply filter_id. intros y Hy. apply Bool.negb_true_iff. destruct (mem _ y) eqn:Em; [|reflexivity].
  apply mem_In, in_map_iff in Em as (? & <- & _). contradiction.
Qed.
Lemma vals_const k k' cs : vals k (map (fun x => (k', x)) cs) = if String.eqb k' k then cs else [].
Proof. unfold vals. induction cs as [|c cs IH]; cbn; destruct (String.eqb k' k); cbn; congruence. Qed.
Lemma group_rows (es : list (string * list string)) : Forall (fun e => snd e <> []) es -> NoDup (map fst es) ->
  group_items (flat_map (fun e => map (fun x => (fst e, x)) (snd e)) es) = es.
Proof.
  intros Hs Hn. rewrite group_items_eq, rows_keys by assumption. rewrite map_map.
  transitivity (map (fun e => e) es); [|apply map_id]. apply map_ext_in. intros [k cs] He. cbn [fst]. f_equal. revert He Hn. clear. induction es as [|[k' cs'] es IH]; [intros []|]. cbn [flat_map fst snd map].
  intros He Hn. inversion Hn as [|? ? N1 N2]; subst. rewrite vals_app, vals_const. destruct He as [E|He].
  - injection E as <- <-. rewrite String.eqb_refl. rewrite vals_nil; [apply app_nil_r|]. intros K. apply N1.
    apply in_map_iff in K as (p & <- & K). apply in_flat_map in K as (e2 & He2 & K). apply in_map_iff in K as (x & <- & _). cbn. now apply in_map.
  - destruct (String.eqb_spec k' k) as [->|_]; [exfalso; apply N1, in_map_iff; exists (k, cs); auto|]. cbn [app]. now apply IH.
Qed.
Lemma cparts_products es : Forall (fun e => fst e <> []) es -> Forall (fun e => snd e <> []) es ->
  NoDup (List.concat (map snd es)) -> NoDup (map (fun e => sp_of (fst e)) es) ->
  cparts (flat_map product es) = sort_strs (map etext es).
Proof.
  intros Hs Hc Hn Hk. unfold cparts, pass1. rewrite group_products by assumption.
  assert (E : map (fun cs => (sp_of (snd cs), fst cs)) (flat_map (fun e : entry => map (fun x => (x, fst e)) (snd e)) es) =
              flat_map (fun e => map (fun x => (fst e, x)) (snd e)) (map (fun e => (sp_of (fst e), snd e)) es)).
  { clear. induction es as [|e es IH]; [reflexivity|]. cbn [flat_map map fst snd]. rewrite map_app, IH, map_map. reflexivity. }
  match goal with |- context [group_items (map ?f ?l)] => change (map f l) with (map (fun cs : string * list string => (sp_of (snd cs), fst cs)) (flat_map (fun e : entry => map (fun x : string => (x, fst e)) (snd e)) es)) end.
  rewrite E, group_rows.
  - rewrite map_map. reflexivity.
  - rewrite Forall_map. exact Hc.
  - rewrite map_map. exact Hk.
Qed.

(** ** The entries of a list of pairs without repetitions *)
Lemma sp_sorted l : NoDup l -> sp_of (sort_strs (oset_of l)) = sp_of l.
Proof.
  intros H. unfold sp_of. rewrite (oset_of_id l H), (oset_of_id _ (sort_NoDup _ H)), sort_idem, (Permutation_length (sort_strs_perm l)). reflexivity.
Qed.
Lemma vals_distinct k kvs : NoDup kvs -> NoDup (vals k kvs).
Proof.
  unfold vals. induction 1 as [|[a b] kvs H _ IH]; cbn; [constructor|]. destruct (String.eqb_spec a k) as [->|N]; cbn; [|exact IH].
  constructor; [|exact IH]. intros K. apply H. apply in_map_iff in K as ([a' b'] & E & K). apply filter_In in K as (K & E2). apply String.eqb_eq in E2. cbn in *. now subst.
Qed.

(* the order of sorting by text, on the entries *)
Lemma sort_map {A} (f : A -> string) (l : list A) : exists l', Permutation l l' /\ map f l' = sort_strs (map f l).
Proof.
  destruct (Permutation_map_inv f l (sort_strs_perm (map f l))) as (l' & E & P). exists l'. auto.
Qed.

Definition entries (kvs : list (string * string)) : list entry :=
  map (fun kc => (sort_strs (oset_of (vals (hd "" (snd kc)) kvs)), snd kc)) (group_items (pass1 kvs)).

Lemma pass1_In kvs sp x : In (sp, x) (pass1 kvs) <-> vals x kvs <> [] /\ sp = sp_of (vals x kvs).
Proof.
  unfold pass1. rewrite in_map_iff. split.
  - intros ([x' l] & E & K). apply group_items_In in K as (-> & K). injection E as <- <-. auto.
  - intros (K & ->). exists (x, vals x kvs). split; [reflexivity|]. apply group_items_In. auto.
Qed.
Lemma concat_vals kvs : NoDup (map snd kvs) -> forall ks, NoDup ks -> NoDup (List.concat (map (fun k => vals k kvs) ks)).
Proof.
  intros Hn. induction 1 as [|k ks Hk _ IH]; cbn; [constructor|].
  assert (N : NoDup (vals k kvs)) by now apply vals_NoDup. revert N IH. 
  assert (D : forall x, In x (vals k kvs) -> ~ In x (List.concat (map (fun k => vals k kvs) ks))).
  { intros x H1 H2. apply in_concat in H2 as (l & Hl & H2). apply in_map_iff in Hl as (k' & <- & Hk'). apply vals_In in H1, H2.
    assert (k = k'); [|now subst]. revert Hn H1 H2. clear. induction kvs as [|[a b] kvs IH]; [intros _ []|]. cbn [map snd In]. intros Hn H1 H2. inversion Hn as [|? ? N1 N2]; subst.
    destruct H1 as [E1|H1], H2 as [E2|H2]; [congruence| | |auto].
    - injection E1 as -> ->. exfalso. apply N1. apply in_map_iff. exists (k', x). auto.
    - injection E2 as -> ->. exfalso. apply N1. apply in_map_iff. exists (k, x). auto. }
  revert D. generalize (vals k kvs). generalize (List.concat (map (fun k => vals k kvs) ks)). clear. intros b a D Na Nb.
  induction Na as [|x a Hx _ IH]; [exact Nb|]. cbn. constructor; [|apply IH; intros y Hy; apply D; now right].
  rewrite in_app_iff. intros [K|K]; [contradiction|]. apply (D x); [now left|exact K].
Qed.
Lemma entries_ok kvs : NoDup kvs ->
  Forall (fun e => fst e <> []) (entries kvs) /\ Forall (fun e => snd e <> []) (entries kvs) /\
  NoDup (List.concat (map snd (entries kvs))) /\ NoDup (map (fun e => sp_of (fst e)) (entries kvs)) /\
  cparts kvs = sort_strs (map etext (entries kvs)) /\
  Forall (fun e => exists x, In x (snd e) /\ vals x kvs <> [] /\ fst e = sort_strs (oset_of (vals x kvs))) (entries kvs).
Proof.
  intros Hn. unfold entries.
  assert (K : forall k cs, In (k, cs) (group_items (pass1 kvs)) -> exists x l, cs = x :: l /\ vals x kvs <> [] /\ k = sp_of (sort_strs (oset_of (vals x kvs)))).
  { intros k cs H. apply group_items_In in H as (E & Hne). destruct cs as [|x l]; [congruence|]. exists x, l. split; [reflexivity|].
    assert (Hx : In x (vals k (pass1 kvs))) by (rewrite <- E; now left). apply vals_In, pass1_In in Hx as (H1 & ->). split; [exact H1|].
    symmetry. apply sp_sorted. now apply vals_distinct. }
  split; [|split; [|split; [|split; [|split]]]].
  - rewrite Forall_map, Forall_forall. intros [k cs] H. destruct (K _ _ H) as (x & l & -> & H1 & _). cbn [fst snd hd].
    intros E. apply H1. destruct (vals x kvs) as [|v w]; [reflexivity|]. exfalso.
    assert (V : In v (sort_strs (oset_of (v :: w)))) by (apply sort_In, oset_of_In; now left). rewrite E in V. destruct V.
  - rewrite Forall_map, Forall_forall. intros [k cs] H. destruct (K _ _ H) as (x & l & -> & _). discriminate.
  - rewrite map_map. cbn [snd]. rewrite group_items_eq, map_map. cbn [snd]. apply concat_vals; [apply pass1_NoDup|apply oset_of_NoDup].
  - rewrite map_map. cbn [fst]. erewrite map_ext_in; [apply (group_items_keys (pass1 kvs))|]. intros [k cs] H. destruct (K _ _ H) as (x & l & -> & _ & ->). reflexivity.
  - unfold cparts. rewrite map_map. f_equal. apply map_ext_in. intros [k cs] H. destruct (K _ _ H) as (x & l & -> & _ & ->). reflexivity.
  - rewrite Forall_map, Forall_forall. intros [k cs] H. destruct (K _ _ H) as (x & l & -> & H1 & _). exists x. cbn. auto.
Qed.

Definition conv (kvs : list (string * string)) (kc : string * list string) : entry :=
  (sort_strs (oset_of (vals (hd "" (snd kc)) kvs)), snd kc).
Definition tx (kc : string * list string) : string := fst kc ++ String ":" (cp_of (snd kc)).

(* channel groups that concise() does not change *)
Definition stable (g : group) : Prop := some wf_code g /\ fspec (cg g) = text_group g.

Lemma lhs_sorted l : l <> [] -> lhs_sensors (lhs_of l) = sort_strs (oset_of l).
Proof. intros H. destruct (one_or_more l H) as [(x & ->)|E]; [reflexivity|]. unfold lhs_of. now rewrite E. Qed.

Lemma kvs_product ss gs : Forall stable gs ->
  map (fun p => (fspec (cg (snd p)), fst p)) (list_prod ss gs) = product (ss, map text_group gs).
Proof.
  intros H. unfold product. cbn [fst snd]. induction ss as [|s ss IH]; [reflexivity|]. cbn [list_prod flat_map]. rewrite map_app, IH. f_equal.
  rewrite !map_map. apply map_ext_in. intros g Hg. cbn. rewrite Forall_forall in H. destruct (H g Hg) as (_ & ->). reflexivity.
Qed.

Lemma tree_entries kvs : kvs <> [] ->
  (forall x s, In (x, s) kvs -> is_iden s = true /\ exists g, stable g /\ text_group g = x) ->
  exists t' es, Permutation (group_items (pass1 kvs)) es /\ wf t' /\ text t' = join "," (cparts kvs) /\ cparts kvs = map tx es /\
    kvs_of t' = flat_map product (map (conv kvs) es).
Proof.
  intros Hn H. destruct (sort_map tx (group_items (pass1 kvs))) as (es & P & E). 
  assert (Hes : Forall (fun kc => exists i, wf_item i /\ text_item i = tx kc /\
            map (fun p => (fspec (cg (snd p)), fst p)) (item_streams i) = product (conv kvs kc)) es).
  { rewrite <- P. apply Forall_forall. intros [k cs] Hk. apply group_items_In in Hk as (Ecs & Hne).
    assert (Hx : forall x, In x cs -> vals x kvs <> [] /\ k = sp_of (vals x kvs)) by (intros x Hx; rewrite Ecs in Hx; apply vals_In in Hx; now apply pass1_In).
    assert (Hg : exists gs, Forall stable gs /\ map text_group gs = cs).
    { assert (F : Forall (fun x => exists g, stable g /\ text_group g = x) cs).
      { apply Forall_forall. intros x Kx. destruct (Hx x Kx) as (V & _). destruct (vals x kvs) as [|v l] eqn:Ev; [congruence|].
        assert (Kv : In v (vals x kvs)) by (rewrite Ev; now left). apply vals_In in Kv. apply (H _ _ Kv). }
      clear -F. induction F as [|x cs (g & G1 & G2) _ (gs & G3 & G4)]; [exists []; auto|]. exists (g :: gs). split; [auto|cbn; congruence]. }
    destruct Hg as (gs & Hst & Hcs). destruct cs as [|x0 cs]; [congruence|].
    destruct (Hx x0 (or_introl eq_refl)) as (V0 & ->).
    assert (Hi : some (fun s => is_iden s = true) (vals x0 kvs)).
    { split; [exact V0|]. apply Forall_forall. intros s Hs. apply vals_In in Hs. now apply H in Hs. }
    assert (Hgs : some (some wf_code) gs).
    { split; [intros ->; discriminate|]. eapply Forall_impl; [|exact Hst]. now intros g (G & _). }
    destruct (lhs_of_spec _ Hi) as (Wl & Tl & _). destruct (rhs_of_spec _ Hgs) as (Wr & Tr & Sr).
    exists (WithSensor (lhs_of (vals x0 kvs)) (Some (rhs_of gs))). split; [cbn; auto|]. split.
    - cbn [text_item]. rewrite Tl, Tr, Hcs. unfold tx. cbn [fst snd]. now rewrite <- app_assoc_s.
    - cbn [item_streams]. rewrite Sr, kvs_product by exact Hst. rewrite lhs_sorted by exact V0. unfold conv. cbn [snd hd]. now rewrite Hcs. }
  assert (Ht : exists t', Forall wf_item t' /\ map text_item t' = map tx es /\ kvs_of t' = flat_map product (map (conv kvs) es)).
  { clear -Hes. induction Hes as [|kc es (i & I1 & I2 & I3) _ (t' & T1 & T2 & T3)]; [exists []; auto|].
    exists (i :: t'). split; [auto|]. split; [cbn; congruence|]. unfold kvs_of, written in *. cbn [flat_map map]. rewrite map_app, I3, T3. reflexivity. }
  destruct Ht as (t' & T1 & T2 & T3). exists t', es. split; [exact P|]. split; [split; [|exact T1]|].
  - intros ->. cbn in T2. symmetry in T2. apply map_eq_nil in T2. subst es. apply Permutation_sym, Permutation_nil in P. revert P. apply group_items_ne.
    unfold pass1. intros K. apply map_eq_nil in K. revert K. now apply group_items_ne.
  - unfold text. rewrite T2, E. split; [reflexivity|]. split; [reflexivity|exact T3].
Qed.

Lemma perm_concat {A} (a b : list (list A)) : Permutation a b -> Permutation (List.concat a) (List.concat b).
Proof.
  intros P. induction P; cbn; [constructor|now apply Permutation_app_head|rewrite !app_assoc; apply Permutation_app_tail, Permutation_app_comm|etransitivity; eassumption].
Qed.

Lemma product_distinct es : Forall (fun e => NoDup (fst e)) es -> NoDup (List.concat (map snd es)) -> NoDup (flat_map product es).
Proof.
  induction 1 as [|[ss cs] es He _ IH]; cbn [map List.concat flat_map]; intros Hn; [constructor|]. apply nodup_app in Hn as (N1 & N2 & N3). cbn [fst snd] in *.
  assert (D : forall p, In p (product (ss, cs)) -> ~ In p (flat_map product es)).
  { intros [x s] H1 H2. apply (N3 x); [apply (product_In (ss, cs)); apply in_map_iff; exists (x, s); auto|].
    apply in_flat_map in H2 as (e & He2 & H2). apply in_concat. exists (snd e). split; [now apply in_map|]. apply product_In, in_map_iff. exists (x, s). auto. }
  assert (P : NoDup (product (ss, cs))).
  { unfold product. cbn [fst snd]. clear -He N1. induction He as [|s ss Hs _ IH]; cbn; [constructor|].
    assert (R : NoDup (map (fun x => (x, s)) cs)) by (apply FinFun.Injective_map_NoDup; [intros a b [=]; assumption|exact N1]).
    assert (D : forall p, In p (map (fun x => (x, s)) cs) -> ~ In p (flat_map (fun s => map (fun x => (x, s)) cs) ss)).
    { intros p H1 H2. apply in_map_iff in H1 as (x & <- & _). apply in_flat_map in H2 as (s2 & Hs2 & H2). apply in_map_iff in H2 as (y & [= -> ->] & _). contradiction. }
    revert R D IH. generalize (map (fun x => (x, s)) cs) as a. intros a R D IH. induction R as [|p a Hp _ IHa]; [exact IH|]. cbn. constructor; [|apply IHa; intros q Hq; apply D; now right].
    rewrite in_app_iff. intros [K|K]; [contradiction|]. apply (D p); [now left|exact K]. }
  specialize (IH N2). revert P D IH. generalize (product (ss, cs)). clear. intros a R D IH. induction R as [|p a Hp _ IHa]; [exact IH|]. cbn. constructor; [|apply IHa; intros q Hq; apply D; now right].
  rewrite in_app_iff. intros [K|K]; [contradiction|]. apply (D p); [now left|exact K].
Qed.

Lemma conv_distinct kvs es : Permutation (group_items (pass1 kvs)) es -> NoDup (flat_map product (map (conv kvs) es)).
Proof.
  intros P. apply product_distinct.
  - rewrite Forall_map. apply Forall_forall. intros kc _. cbn. apply sort_NoDup, oset_of_NoDup.
  - rewrite map_map. cbn [conv snd]. eapply Permutation_NoDup; [apply perm_concat, Permutation_map; exact P|].
    rewrite group_items_eq, map_map. cbn [snd]. apply concat_vals; [apply pass1_NoDup|apply oset_of_NoDup].
Qed.

Lemma conv_fixed kvs es : NoDup kvs -> Permutation (group_items (pass1 kvs)) es -> cparts kvs = map tx es ->
  cparts (flat_map product (map (conv kvs) es)) = cparts kvs.
Proof.
  intros Hn P E. destruct (entries_ok kvs Hn) as (H1 & H2 & H3 & H4 & _).
  assert (PE : Permutation (entries kvs) (map (conv kvs) es)) by (unfold entries; fold (conv kvs); now apply Permutation_map).
  rewrite cparts_products.
  - transitivity (sort_strs (cparts kvs)); [|unfold cparts; apply sort_idem]. f_equal. rewrite E, map_map. apply map_ext_in. intros [k cs] Hk.
    apply (Permutation_in _ (Permutation_sym P)) in Hk. apply group_items_In in Hk as (Ek & Hne). destruct cs as [|x l]; [congruence|].
    assert (Hx : In x (vals k (pass1 kvs))) by (rewrite <- Ek; now left). apply vals_In, pass1_In in Hx as (_ & ->).
    unfold etext, conv, tx. cbn [fst snd hd]. rewrite sp_sorted by now apply vals_distinct. reflexivity.
  - rewrite <- PE. exact H1.
  - rewrite <- PE. exact H2.
  - eapply Permutation_NoDup; [apply perm_concat, Permutation_map; exact PE|exact H3].
  - eapply Permutation_NoDup; [apply Permutation_map; exact PE|exact H4].
Qed.

(** ** Texts *)
Lemma concise_text t : wf t -> concise_sensor_chan (text t) = Ok (join "," (cparts (kvs_of t))).
Proof.
  intros Hw. unfold concise_sensor_chan. rewrite parse_text_ok by trivial. cbn [bind]. rewrite tr_items_true by trivial. cbn [bind].
  rewrite concise_parts_eq, map_map. reflexivity.
Qed.

Definition plain (t : list item) : Prop :=
  forall s g, In (s, g) (written t) -> gnames g <> [] /\ Forall canonical (names_of' (gnames g)).

Lemma cg_names g g' : Forall wf_code g -> Forall wf_code g' -> names_of' (gnames g) = names_of' (gnames g') -> cg g = cg g'.
Proof. intros H H' E. unfold cg, concise. rewrite !normalize_nm by now apply gnames_nm. rewrite E. reflexivity. Qed.

Lemma cg_stable g : Forall wf_code g -> gnames g <> [] -> Forall canonical (names_of' (gnames g)) ->
  exists g', stable g' /\ text_group g' = fspec (cg g) /\ names_of' (gnames g') = names_of' (gnames g).
Proof.
  intros H Hn Hc. destruct (cg_text g H) as (g' & H1 & H2 & H3 & H4).
  assert (En : names_of' (gnames g') = names_of' (gnames g)).
  { apply (denotes_all_functional (map text_code g')); [now apply group_denotes|]. rewrite <- H2. now apply concise_denotes. }
  exists g'. split; [|split; [exact H3|exact En]]. split; [split; auto|]. rewrite H3. f_equal. now apply cg_names.
Qed.

Lemma kvs_stable t : wf t -> plain t -> forall x s, In (x, s) (kvs_of t) -> is_iden s = true /\ exists g, stable g /\ text_group g = x.
Proof.
  intros Hw Hp x s H. unfold kvs_of in H. apply in_map_iff in H as ([s' g] & E & H). injection E as <- ->.
  pose proof (written_wf _ Hw) as W. rewrite Forall_forall in W. destruct (W _ H) as (W1 & W2). destruct (Hp _ _ H) as (P1 & P2).
  split; [exact W1|]. destruct (cg_stable g W2 P1 P2) as (g' & S & T & _). eauto.
Qed.

Lemma concise_once t : wf t -> plain t -> exists t', wf t' /\ concise_sensor_chan (text t) = Ok (text t') /\ NoDup (kvs_of t') /\
  (NoDup (kvs_of t) -> concise_sensor_chan (text t') = Ok (text t')).
Proof.
  intros Hw Hp. destruct (tree_entries (kvs_of t)) as (t' & es & P & Hw' & Ht & Ec & Ek).
  - unfold kvs_of. intros K. apply map_eq_nil in K. now apply written_ne in K.
  - now apply kvs_stable.
  - exists t'. split; [exact Hw'|]. rewrite (concise_text t Hw), Ht. split; [reflexivity|]. split; [rewrite Ek; now apply conv_distinct|].
    intros Hn. rewrite <- Ht, (concise_text t' Hw'), Ek, (conv_fixed _ _ Hn P Ec), Ht. reflexivity.
Qed.
