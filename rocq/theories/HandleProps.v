(* C138: lazily opened files show one version of their file. *)
From Verif Require Import Py PyProofs LazyModel LazyProofs HandleModel HandleSpec HandleProofs.
Local Open Scope Z_scope.

Section P.
Context {V : Type} (veq : V -> V -> bool) (promote : V -> V) (fast : bool).
Context (upstream : gfile V -> Z -> option string -> list idx -> result (rarr V)).
Local Notation step := (hstep veq promote fast upstream).
Local Notation after := (after veq promote fast upstream).
Local Notation made := (made veq promote fast upstream).
Local Notation shows := (shows veq promote fast upstream).

(* object i is not used in the calls [mid] after [before], except while path p did not exist *)
Definition not_opened (i : nat) (p : string) (before mid : list (hop V)) : Prop :=
  forall a x b, mid = (a ++ x :: b)%list -> uses x i -> contents p (before ++ a) None = None.
Definition level (o : option Z) : Z := match o with None => 0 | Some o => o end.

Lemma made_new l o : (exists p m ov, o = New p m ov) -> made (l ++ [o]) = S (made l).
Proof.
  intros (p & m & ov & ->). unfold HandleSpec.made, HandleSpec.after. rewrite run_app, run_one. cbn. rewrite app_length. cbn. lia.
Qed.
Lemma fresh_object l p m o : nth_error (y_objs (after (l ++ [New p m o]))) (made l) = Some (new_handle p m o).
Proof.
  unfold HandleSpec.made, HandleSpec.after. rewrite run_app, run_one. cbn. rewrite nth_error_app2, Nat.sub_diag by lia. reflexivity.
Qed.
Lemma after_app a b : after (a ++ b) = fst (hrun veq promote fast upstream (after a) b).
Proof. apply run_app. Qed.

Lemma opened_at l i h mid u more f :
  nth_error (y_objs (after l)) i = Some h -> h_ds h = None -> not_opened i (h_path h) l mid -> uses u i ->
  contents (h_path h) (l ++ mid) None = Some f ->
  exists h', nth_error (y_objs (after (l ++ mid ++ u :: more))) i = Some h' /\ h_ds h' = Some f /\ h_overview h' = h_overview h /\ h_method h' = method_after i (h_method h) (mid ++ u :: more).
Proof.
  intros Hi D N U C.
  destruct (run_unopened veq promote fast upstream (after l) mid i h (after_good _ _ _ _ l) Hi D) as (h1 & H1 & D1 & P1 & O1 & M1).
  { intros a x b E X. rewrite after_disk, <- contents_app. exact (N a x b E X). }
  rewrite <- after_app in H1.
  destruct (step_objects veq promote fast upstream (after (l ++ mid)) u (after_good _ _ _ _ _)) as (G2 & B & _).
  destruct (B i h1 H1) as (h2 & H2 & P2 & O2 & M2 & _ & _ & F & _). specialize (F U D1). rewrite P1, after_disk, C in F.
  destruct (run_opened veq promote fast upstream _ more i h2 f G2 H2 F) as (h3 & H3 & D3 & P3 & O3 & M3).
  exists h3. rewrite app_assoc, after_app, run_cons. split; [exact H3|]. split; [exact D3|].
  split; [congruence|]. rewrite M3, M2, M1, method_app. reflexivity.
Qed.
Lemma shows_at l i h f : nth_error (y_objs (after l)) i = Some h -> h_ds h = Some f -> shows (after l) i f (h_overview h) (h_method h).
Proof. apply shows_opened, after_good. Qed.

Lemma over_object l i h k o' : nth_error (y_objs (after l)) i = Some h -> (o' = Over i k \/ o' = Absolute i k) ->
  nth_error (y_objs (after (l ++ [o']))) (made l) = Some (handle_absolute h (match o' with Over _ _ => k + h_overview h | _ => k end)).
Proof.
  intros Hi E. rewrite after_app, run_one. unfold HandleSpec.made. destruct E as [-> | ->]; cbn [hstep]; rewrite Hi; cbn [fst y_objs]; rewrite nth_error_app2, Nat.sub_diag by lia; reflexivity.
Qed.

(* An object shows the contents its path had when it was first used, whatever happens to
   the file and to other objects later; so do the overviews taken from it after that. *)
Theorem C138_one_version before p m o mid u more f :
  let i := made before in
  not_opened i p (before ++ [New p m o]) mid -> uses u i ->
  contents p (before ++ [New p m o] ++ mid) None = Some f ->
  let now := (before ++ [New p m o] ++ mid ++ u :: more)%list in
  let method := method_after i m (mid ++ u :: more) in
  shows (after now) i f (level o) method /\
  forall k later, let j := made now in
    shows (after (now ++ Over i k :: later)) j f (level o + k) (method_after j method later) /\
    shows (after (now ++ Absolute i k :: later)) j f k (method_after j method later).
Proof.
  cbn zeta. intros N U C.
  destruct (opened_at (before ++ [New p m o]) (made before) (new_handle p m o) mid u more f) as (h & Hi & D & O & M);
    [apply fresh_object|reflexivity|exact N|exact U|rewrite <- app_assoc; exact C|].
  rewrite <- app_assoc in Hi. cbn in O, M. split.
  - change (level o) with (match o with Some o => o | None => 0 end). rewrite <- M, <- O. now apply shows_at.
  - intros k later. set (now := (before ++ [New p m o] ++ mid ++ u :: more)%list) in *.
    assert (K : forall o', (o' = Over (made before) k \/ o' = Absolute (made before) k) ->
      shows (after (now ++ o' :: later)) (made now) f (match o' with Over _ _ => level o + k | _ => k end) (method_after (made now) (method_after (made before) m (mid ++ u :: more)) later)).
    { intros o' Ho. pose proof (over_object now (made before) h k o' Hi Ho) as Hj.
      destruct (run_opened veq promote fast upstream _ later _ _ f (after_good veq promote fast upstream (now ++ [o'])) Hj D) as (h' & H' & D' & _ & O' & M').
      rewrite <- after_app, <- app_assoc in H'. cbn [app] in H'. cbn [h_overview h_method handle_absolute] in O', M'.
      pose proof (shows_at _ _ _ _ H' D') as S. rewrite O', M', M in S. 
      destruct Ho as [-> | ->]; [|exact S]. rewrite O, Z.add_comm in S. exact S. }
    split; [exact (K (Over (made before) k) (or_introl eq_refl))|exact (K (Absolute (made before) k) (or_intror eq_refl))].
Qed.

(* While there is no file an object only raises, and opens the file once there is one. *)
Theorem C138_no_file before p m o mid u :
  let i := made before in
  not_opened i p (before ++ [New p m o]) mid -> uses u i ->
  contents p (before ++ [New p m o] ++ mid) None = None ->
  In (snd (step (after (before ++ [New p m o] ++ mid)) u)) [SShape (Err OtherError); SNum (Err OtherError); SItem (Err OtherError)].
Proof.
  cbn zeta. intros N U C. rewrite app_assoc in *.
  destruct (run_unopened veq promote fast upstream _ mid _ _ (after_good veq promote fast upstream (before ++ [New p m o])) (fresh_object before p m o) eq_refl) as (h & Hi & D & P & _ & _).
  { intros a x b E X. rewrite after_disk, <- contents_app. exact (N a x b E X). }
  rewrite <- after_app in Hi.
  assert (ND : on_disk (h_path h) (y_disk (after ((before ++ [New p m o]) ++ mid))) = None) by (rewrite P, after_disk; exact C).
  pose proof (after_good veq promote fast upstream _ _ _ Hi) as I. unfold inv in I. rewrite D in I.
  destruct u as [| | | | | |j|j|j index]; cbn in U; try contradiction; subst j; cbn [hstep]; unfold on; rewrite Hi.
  - rewrite (unopened_shape _ h D I), ND. cbn. auto.
  - rewrite (unopened_num _ h D I), ND. cbn. auto.
  - rewrite (unopened_item veq promote fast upstream index _ h D I), ND. cbn. auto.
Qed.

(* An overview taken before the first use is on its own: it shows the contents at its own
   first use. *)
Theorem C138_separate before p m o mid k mid2 u more f :
  let i := made before in
  not_opened i p (before ++ [New p m o]) mid ->
  let l := (before ++ [New p m o] ++ mid)%list in
  let j := made l in
  not_opened j p (l ++ [Over i k]) mid2 -> uses u j ->
  contents p (l ++ [Over i k] ++ mid2) None = Some f ->
  shows (after (l ++ [Over i k] ++ mid2 ++ u :: more)) j f (level o + k) (method_after j (method_after i m mid) (mid2 ++ u :: more)).
Proof.
  cbn zeta. intros N N2 U C.
  destruct (run_unopened veq promote fast upstream _ mid _ _ (after_good veq promote fast upstream (before ++ [New p m o])) (fresh_object before p m o) eq_refl) as (h & Hi & D & P & O & M).
  { intros a x b E X. rewrite after_disk, <- contents_app. exact (N a x b E X). }
  rewrite <- after_app, <- app_assoc in Hi. set (l := (before ++ [New p m o] ++ mid)%list) in *.
  pose proof (over_object l _ h k _ Hi (or_introl eq_refl)) as Hj.
  destruct (opened_at (l ++ [Over (made before) k]) (made l) _ mid2 u more f Hj) as (h' & H' & D' & O' & M');
    [exact D|cbn; rewrite P; exact N2|exact U|cbn; rewrite P, <- app_assoc; exact C|].
  rewrite <- app_assoc in H'. pose proof (shows_at _ _ _ _ H' D') as S. rewrite O', M' in S. cbn in S, O, M. rewrite O, M, Z.add_comm in S. exact S.
Qed.
End P.
Print Assumptions C138_one_version.
Print Assumptions C138_no_file.
Print Assumptions C138_separate.

(* a file of given height with every sample v *)
Definition plain_file (h v : Z) : gfile Z := mkG (fun _ => h) (fun _ => 2) 1 (fun _ _ _ _ => v) (fun _ _ => None) 1 (fun _ => true).
Definition no_reader : gfile Z -> Z -> option string -> list idx -> result (rarr Z) := fun _ _ _ _ => Err OtherError.
(* the file is replaced after the first use: the object and its later overview show the old
   contents, the overview taken before shows the new ones *)
Example C138_case :
  let hist := [New "a" None None; Shape 0; Write "a" (plain_file 3 5); Over 0 1; Num 0;
               Write "a" (plain_file 4 6); Over 0 1; Shape 0; Shape 1; Shape 2; Remove "a"; Shape 0; Shape 1]%string in
  snd (hrun Z.eqb (fun v => v) true no_reader hstart hist) =
    [Done; SShape (Err OtherError); Done; Done; SNum (Ok 1); Done; Done;
     SShape (Ok (3, 2, 1)); SShape (Ok (4, 2, 1)); SShape (Ok (3, 2, 1)); Done; SShape (Ok (3, 2, 1)); SShape (Ok (4, 2, 1))] /\
  not_opened 0 "a"%string [New "a"%string None None] [Shape 0; Write "a"%string (plain_file 3 5); Over 0 1] /\
  snd (hstep Z.eqb (fun v => v) true no_reader (after Z.eqb (fun v => v) true no_reader hist) (Item 0 [full; IInt 0; IInt 0])) =
    SItem (Ok (mkR true 3 1 1 [[[SVal 5]]; [[SVal 5]]; [[SVal 5]]])).
Proof.
  cbn zeta. split; [vm_compute; reflexivity|]. split; [|vm_compute; reflexivity].
  intros [|? [|? [|? [|? a]]]] x b E U; cbn in E; inversion E; subst; try reflexivity; cbn in U; try contradiction; destruct a; discriminate.
Qed.
