(* C128: selecting bands of a concatenation. *)
From Verif Require Import PyProofs AccumModel.
From Verif Require TakeModel.
Local Open Scope Z_scope.

(* the band a request stands for *)
Definition wanted (r : band_request) (p : piece) : Prop :=
  match r with
  | (Some (i, j), _) => p = Band i j
  | (None, Some c) => p = Missing c
  | (None, None) => False
  end.
(* requests of a concatenation: bands that the parts have; missing ones have a name *)
Definition requestable (bands : nat -> Z) (r : band_request) : Prop :=
  match r with
  | (Some (i, j), _) => 0 <= j < bands i
  | (None, c) => c <> None
  end.

Section Accum.
Variable bands : nat -> Z.

Lemma range_snoc a e : a <= e -> range a (e + 1) = (range a e ++ [e])%list.
Proof.
  intros H. unfold range. replace (Z.to_nat (e + 1 - a)) with (Z.to_nat (e - a) + 1)%nat by lia.
  rewrite (zseq_map_add _ _ (fun k => k)), map_app. f_equal. cbn. f_equal. lia.
Qed.
Lemma zs_eqb_refl l : zs_eqb l l = true.
Proof. induction l; cbn; [reflexivity|]. now rewrite Z.eqb_refl. Qed.

(* the segment holds the bands of these requests *)
Definition holds (s : segment) (l : list band_request) : Prop :=
  l <> [] /\ Forall (requestable bands) l /\ Forall (fun r => option_map fst (fst r) = s_comp s) l /\
  (exists a, s_start s = Some a /\ 0 <= a /\
     match s_stop s with Some e => a < e /\ s_indexes s = range a e | None => s_comp s <> None end) /\
  match s_comp s with
  | Some p => s_indexes s = map (fun r => match fst r with Some (_, j) => j | None => 0 end) l
  | None => s_codes s = Some (map (fun r => match snd r with Some c => c | None => EmptyString end) l)
  end.

Lemma range_one a : range a (a + 1) = [a].
Proof. rewrite range_snoc by lia. unfold range. now rewrite Z.sub_diag. Qed.

(* the index added for a request *)
Definition inner_for (s : option segment) (r : band_request) : Z :=
  match fst r with
  | Some (_, j) => j
  | None => match s with Some s => match s_stop s with Some e => e | None => 0 end | None => 0 end
  end.

Lemma holds_new r : requestable bands r -> holds (add_inner (new_segment (option_map fst (fst r))) (inner_for None r) (snd r)) [r].
Proof.
  intros Hr. split; [discriminate|]. split; [repeat constructor; exact Hr|]. split; [repeat constructor|]. split.
  - exists (inner_for None r). cbn. split; [reflexivity|]. destruct r as ([(i & j)|] & c); cbn in *; (split; [lia|]); (split; [lia|]); first [reflexivity | now rewrite range_one].
  - destruct r as ([(i & j)|] & [c|]); cbn in *; try reflexivity. congruence.
Qed.

Lemma holds_add s l r : holds s l -> requestable bands r -> option_map fst (fst r) = s_comp s ->
  holds (add_inner s (inner_for (Some s) r) (snd r)) (l ++ [r]).
Proof.
  intros (H1 & H2 & H3 & (a & Ha & Ha0 & Hs) & H4) Hr Hc. split; [destruct l; discriminate|].
  split; [apply Forall_app; auto|].
  unfold add_inner. rewrite Ha. cbn [s_comp s_start s_stop s_codes s_indexes].
  split; [apply Forall_app; auto|]. split.
  - exists a. split; [first [reflexivity | assumption]|]. split; [assumption|].
    destruct (s_stop s) as [e|] eqn:Ee.
    + destruct Hs as (Hae & Hi). destruct (Z.eqb_spec e (inner_for (Some s) r)) as [E | Ne].
      * rewrite <- E. split; [lia|]. rewrite Hi, range_snoc by lia. reflexivity.
      * rewrite <- Hc. destruct r as ([(i & j)|] & c); cbn in *; [discriminate|]. rewrite Ee in Ne. congruence.
    + assumption.
  - rewrite <- Hc in H4 |- *. destruct r as ([(i & j)|] & c); cbn in *.
    + rewrite H4, map_app. reflexivity.
    + destruct c as [c|]; [|congruence]. rewrite H4, map_app. reflexivity.
Qed.

Lemma gather_holds l : Forall (requestable bands) l -> forall s l0, holds s l0 ->
  exists segs groups, gather (Some s) l = Ok segs /\ Forall2 holds segs groups /\ List.concat groups = (l0 ++ l)%list.
Proof.
  induction 1 as [|r l Hr _ IH]; intros s l0 Hs.
  - exists [s], [l0]. split; [reflexivity|]. split; [constructor; [exact Hs|constructor]|]. cbn. now rewrite !app_nil_r.
  - cbn [gather]. destruct r as (place & code).
    assert (Hi : (match place with
               | Some (_, j) => Ok j
               | None => match s_comp s with
                               | None => match s_stop s with Some e => Ok e | None => Err TypeError end
                               | Some _ => Ok 0
                               end
               end : result Z) = Ok (if same_comp (s_comp s) (option_map fst place) then inner_for (Some s) (place, code) else inner_for None (place, code))).
    { destruct place as [(i & j)|]; cbn; [now destruct (same_comp _ _)|]. destruct (s_comp s) as [p|] eqn:Ec; cbn; [reflexivity|].
      destruct Hs as (_ & _ & _ & (a & _ & _ & Hst) & _). destruct (s_stop s); [reflexivity|]. congruence. }
    rewrite Hi. cbn [bind].
    destruct (same_comp (s_comp s) (option_map fst place)) eqn:Es.
    + assert (E : option_map fst (fst (place, code)) = s_comp s).
      { cbn. destruct (s_comp s) as [p|], (option_map fst place) as [q|]; cbn in Es; try discriminate; [|reflexivity]. apply Nat.eqb_eq in Es. congruence. }
      destruct (IH _ _ (holds_add s l0 (place, code) Hs Hr E)) as (segs & groups & Eg & Hg & Ec).
      exists segs, groups. cbn [snd] in Eg. rewrite Eg. split; [reflexivity|]. split; [assumption|]. now rewrite Ec, <- app_assoc.
    + destruct (IH _ _ (holds_new (place, code) Hr)) as (segs & groups & Eg & Hg & Ec). cbn [fst snd] in Eg. rewrite Eg. cbn [bind].
      exists (s :: segs), (l0 :: groups). split; [reflexivity|]. split; [now constructor|]. cbn. now rewrite Ec.
Qed.

Lemma range_get0 a e : a < e -> py_get (range a e) 0 = Ok a.
Proof.
  intros H. unfold range, py_get. replace (Z.to_nat (e - a)) with (1 + Z.to_nat (e - a - 1))%nat by lia.
  rewrite (zseq_map_add _ _ (fun k => k)), map_app. cbn. f_equal. lia.
Qed.
Lemma range_get_last a e : a < e -> py_get (range a e) (-1) = Ok (e - 1).
Proof.
  intros H. replace e with ((e - 1) + 1) at 1 by lia. rewrite range_snoc by lia. unfold py_get.
  rewrite app_length. cbn [List.length]. change (-1 <? 0) with true. cbv iota zeta.
  destruct (Z.ltb_spec (-1 + Z.of_nat (List.length (range a (e - 1)) + 1)) 0); [lia|].
  rewrite nth_error_app2 by lia. now replace (_ - _)%nat with O by lia.
Qed.
Lemma range_zseq n : range 0 n = zseq (Z.to_nat n).
Proof. unfold range. rewrite Z.sub_0_r. rewrite map_ext with (g := fun k => k) by (intros; lia). apply map_id. Qed.

Lemma sub_ok s l : holds s l -> exists ps, subcomponent bands s = Ok ps /\ Forall2 wanted l ps.
Proof.
  intros (H1 & H2 & H3 & (a & Ha & Ha0 & Hs) & H4). unfold subcomponent. destruct (s_comp s) as [p|].
  - assert (G : exists i, get_indexer (bands p) s = Ok i /\ match i with None => zseq (Z.to_nat (bands p)) | Some l => l end = s_indexes s).
    { unfold get_indexer. rewrite Ha. destruct (s_stop s) as [e|]; [|eauto]. destruct Hs as (Hae & Hi).
      destruct (Z.eqb_spec a 0) as [-> | Na]; cbn [andb].
      - destruct (Z.eqb_spec e (bands p)) as [-> | Ne].
        + rewrite Hi, range_get0, range_get_last by lia. cbn [bind]. rewrite !Z.eqb_refl. cbn. exists None. split; [reflexivity|]. now rewrite range_zseq.
        + rewrite Hi, zs_eqb_refl. eauto.
      - rewrite Hi, zs_eqb_refl. eauto. }
    destruct G as (i & -> & Ei). cbn [bind]. eexists. split; [reflexivity|]. rewrite Ei, H4. clear -H3.
    induction l as [|r l IH]; [constructor|]. inversion H3 as [|? ? E H3']; subst. cbn [map]. constructor; [|now apply IH].
    destruct r as ([(i & j)|] & c); cbn in *; congruence.
  - rewrite H4. eexists. split; [reflexivity|]. clear -H2 H3.
    induction l as [|r l IH]; [constructor|]. inversion H3 as [|? ? E H3']; subst. inversion H2 as [|? ? E2 H2']; subst. cbn [map]. constructor; [|now apply IH].
    destruct r as ([(i & j)|] & [c|]); cbn in *; congruence.
Qed.
End Accum.

(* The new components hold exactly the requested bands, in order; the code's own
   assertions never fail. *)
Theorem C128_exact_bands : forall bands l, Forall (requestable bands) l ->
  exists ps, components bands l = Ok ps /\ Forall2 wanted l (List.concat ps).
Proof.
  intros bands [|r l] Hl; [exists []; split; [reflexivity|constructor]|]. inversion Hl as [|? ? Hr Hl']; subst.
  unfold components. destruct (gather_holds bands l Hl' _ _ (holds_new bands r Hr)) as (segs & groups & Eg & Hg & Ec).
  assert (E : gather None (r :: l) = Ok segs).
  { rewrite <- Eg. cbn [gather]. destruct r as ([(i & j)|] & c); reflexivity. }
  rewrite E. cbn [bind]. change ([r] ++ l)%list with (r :: l) in Ec. rewrite <- Ec. clear -Hg.
  induction Hg as [|s g segs groups Hs _ IH]; [exists []; split; [reflexivity|constructor]|].
  destruct IH as (ps & E & F). destruct (sub_ok bands s g Hs) as (p & Ep & Fp). cbn [mapR]. rewrite Ep, E. cbn [bind].
  exists (p :: ps). split; [reflexivity|]. cbn. now apply Forall2_app.
Qed.
Print Assumptions C128_exact_bands.

(* bands 1 and 2 of part 5, a missing name, part 7 in full, part 5 again, out of order *)
Example C128_case :
  let bands i := if Nat.eqb i 5 then 4 else 2 in
  let l := [(Some (5%nat, 1), Some "b"); (Some (5%nat, 2), Some "c"); (None, Some "zz"); (None, Some "yy"); (Some (7%nat, 0), Some "e");
            (Some (7%nat, 1), Some "f"); (Some (5%nat, 3), Some "d"); (Some (5%nat, 0), Some "a")]%string in
  Forall (requestable bands) l /\
  components bands l = Ok [[Band 5 1; Band 5 2]; [Missing "zz"; Missing "yy"]; [Band 7 0; Band 7 1]; [Band 5 3; Band 5 0]]%string.
Proof. cbv zeta. split; [repeat constructor; cbn; (lia || discriminate)|vm_compute; reflexivity]. Qed.

(** The loop and the runs of TakeModel.v, on which C36-C42 rest, agree. *)

(* neighbours belong to different parts *)
Fixpoint alternate (segs : list segment) : Prop :=
  match segs with
  | s :: ((s' :: _) as r) => same_comp (s_comp s) (s_comp s') = false /\ alternate r
  | _ => True
  end.

Lemma gather_alternate l : forall s segs, gather (Some s) l = Ok segs ->
  exists s' segs', segs = s' :: segs' /\ s_comp s' = s_comp s /\ alternate segs.
Proof.
  induction l as [|(place & code) l IH]; intros s segs E; cbn [gather] in E.
  - injection E as <-. exists s, []. split; [reflexivity|]. split; [reflexivity|exact I].
  - apply bind_ok in E. destruct E as (inner & _ & E).
    destruct (same_comp (s_comp s) (option_map fst place)) eqn:Es.
    + destruct (IH _ _ E) as (s' & segs' & -> & Hc & Ha). exists s', segs'. split; [reflexivity|]. split; [|exact Ha].
      rewrite Hc. unfold add_inner. now destruct (s_start s).
    + apply bind_ok in E. destruct E as (rest & Er & E). injection E as <-. destruct (IH _ _ Er) as (s' & segs' & -> & Hc & Ha).
      exists s, (s' :: segs'). split; [reflexivity|]. split; [reflexivity|]. split; [|exact Ha]. now rewrite Hc.
Qed.

(* a request as TakeModel.v has it *)
Definition plain_request (r : option (nat * Z) * string) : band_request := (fst r, Some (snd r)).
Definition entry (r : option (nat * Z) * string) : Z * string := (match fst r with Some (_, j) => j | None => 0 end, snd r).

Lemma runs_group k g l : g <> [] -> Forall (fun r => option_map fst (fst r) = k) g ->
  TakeModel.runs (g ++ l) = match TakeModel.runs l with
  | (k', vs) :: rest => if TakeModel.key_eqb k k' then (k', (map entry g ++ vs)%list) :: rest else (k, map entry g) :: (k', vs) :: rest
  | [] => [(k, map entry g)]
  end.
Proof.
  intros Hg Hk. induction g as [|(w & c) g IH]; [congruence|]. inversion Hk as [|? ? Hk0 Hk']; subst. cbn [fst] in *.
  cbn [app TakeModel.runs]. destruct g as [|x g].
  - cbn [app map entry fst snd]. destruct (TakeModel.runs l) as [|(k' & vs) rest]; reflexivity.
  - rewrite IH by (congruence || assumption). clear IH.
    assert (R : TakeModel.key_eqb (option_map fst w) (option_map fst w) = true) by (destruct w as [(p & j)|]; cbn; [apply Nat.eqb_refl|reflexivity]).
    destruct (TakeModel.runs l) as [|(k' & vs) rest].
    + rewrite R. reflexivity.
    + destruct (TakeModel.key_eqb (option_map fst w) k') eqn:Ek; [rewrite Ek; reflexivity|]. rewrite R. reflexivity.
Qed.

Lemma runs_groups bands segs gs : Forall2 (fun s g => holds bands s (map plain_request g)) segs gs -> alternate segs ->
  Forall2 (fun s r => s_comp s = fst r /\ (s_comp s = None -> s_codes s = Some (map snd (snd r))) /\
                      (s_comp s <> None -> s_indexes s = map fst (snd r))) segs (TakeModel.runs (List.concat gs)).
Proof.
  induction 1 as [|s g segs gs Hs H IH]; intros Ha; [constructor|]. cbn [List.concat].
  destruct Hs as (N & _ & Hc & _ & Hd).
  assert (Hk : Forall (fun r => option_map fst (fst r) = s_comp s) g).
  { clear -Hc. induction g as [|x g IH]; [constructor|]. cbn in Hc. inversion Hc; subst. constructor; auto. }
  rewrite (runs_group (s_comp s)); [|intros ->; now apply N|exact Hk].
  assert (Q : s_comp s = fst (s_comp s, map entry g) /\ (s_comp s = None -> s_codes s = Some (map snd (snd (s_comp s, map entry g)))) /\
                      (s_comp s <> None -> s_indexes s = map fst (snd (s_comp s, map entry g)))).
  { cbn [fst snd]. split; [reflexivity|]. destruct (s_comp s) as [p|]; rewrite Hd, !map_map; (split; [intros E0|intros N0]); try discriminate; try congruence; reflexivity. }
  assert (IH' : alternate segs) by (destruct segs; [exact I|apply Ha]). specialize (IH IH').
  destruct segs as [|s' segs].
  - destruct (TakeModel.runs (List.concat gs)); inversion IH. constructor; [exact Q|constructor].
  - destruct (TakeModel.runs (List.concat gs)) as [|(k' & vs) rest]; [inversion IH|].
    assert (E1 : s_comp s' = k') by (now inversion IH as [|? ? ? ? (E1 & _)]).
    destruct Ha as (Hne & _). rewrite E1 in Hne. change (TakeModel.key_eqb (s_comp s) k') with (same_comp (s_comp s) k'). rewrite Hne.
    constructor; [exact Q|exact IH].
Qed.

Lemma split_plain groups : forall l, List.concat groups = map plain_request l -> exists gs, groups = map (map plain_request) gs /\ l = List.concat gs.
Proof.
  induction groups as [|g groups IH]; intros l E; cbn in E.
  - exists []. destruct l; [auto|discriminate].
  - symmetry in E. apply map_eq_app in E. destruct E as (l1 & l2 & -> & <- & E). symmetry in E. destruct (IH _ E) as (gs & -> & ->). now exists (l1 :: gs).
Qed.

Theorem C128_runs : forall bands l, Forall (requestable bands) (map plain_request l) ->
  exists segs, gather None (map plain_request l) = Ok segs /\
    Forall2 (fun s r => s_comp s = fst r /\ (s_comp s = None -> s_codes s = Some (map snd (snd r))) /\
                        (s_comp s <> None -> s_indexes s = map fst (snd r))) segs (TakeModel.runs l).
Proof.
  intros bands [|r l] Hl; [exists []; split; [reflexivity|constructor]|]. cbn [map] in *. inversion Hl as [|? ? Hr Hl']; subst.
  destruct (gather_holds bands _ Hl' _ _ (holds_new bands _ Hr)) as (segs & groups & Eg & Hg & Ec).
  exists segs. split.
  - rewrite <- Eg. destruct r as ([(i & j)|] & c); reflexivity.
  - destruct (gather_alternate _ _ _ Eg) as (_ & _ & _ & _ & Ha).
    destruct (split_plain groups (r :: l)) as (gs & -> & ->); [exact Ec|]. apply (runs_groups bands); [|exact Ha].
    clear -Hg. revert segs Hg. induction gs as [|g gs IH]; intros segs Hg; inversion Hg; subst; constructor; auto.
Qed.
Print Assumptions C128_runs.
