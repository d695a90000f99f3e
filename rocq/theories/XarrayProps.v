(* C151: casting to xarray and optimizing. *)
From Verif Require Import Py PyProofs GeomModel GraphModel GraphSpec GraphBase GraphSize FinalModel FinalSpec FinalProofs GraphProps XarrayModel.
From Coq Require Import ZifyBool.
Local Open Scope Z_scope.

Lemma optimize_same o fuel t t' : optimize o fuel t = Ok (t', true) -> t' = t.
Proof.
  destruct fuel as [|f]; [discriminate|]. destruct t as [l|ps d|s ys xs ci d nm nc|s M d al|s q d|s k d]; cbn [optimize].
  - now intros [= <-].
  - intros H. apply bind_ok in H as (r & _ & H). destruct (forallb snd r); [now injection H as <-|].
    destruct (mkConcat (map fst r)); [discriminate|now injection H as <-].
  - intros H. apply bind_ok in H as (s1 & _ & H). apply bind_ok in H as (n & _ & H). discriminate.
  - intros H. apply bind_ok in H as (s1 & _ & H). apply bind_ok in H as (n & _ & H). discriminate.
  - intros H. apply bind_ok in H as (s1 & _ & H). apply bind_ok in H as (n & _ & H). discriminate.
  - intros H. apply bind_ok in H as (s1 & _ & H). apply bind_ok in H as (n & _ & H). discriminate.
Qed.

(* optimizing the cast is casting the optimized image *)
Definition xoptimizes (o : oracle) (x x' : xnode) : Prop := exists fuel b, xoptimize o fuel x = Ok (x', b).

Lemma xoptimizes_sub o t x' : xoptimizes o (AsX t) x' <-> exists t', optimizes o t t' /\ x' = AsX t'.
Proof.
  unfold xoptimizes, optimizes, xoptimize. cbn [x_sub]. split.
  - intros (f & b & H). apply bind_ok in H as ([t' same] & H & G). destruct same.
    + injection G as <- _. apply optimize_same in H as E. subst t'. eauto.
    + injection G as <- _. eauto.
  - intros (t' & (f & b & H) & ->). exists f, b. rewrite H. cbn [bind]. destruct b; [|reflexivity]. apply optimize_same in H. now subst.
Qed.

Theorem C151_commutes o t x' : xoptimizes o (AsX t) x' <-> exists t', optimizes o t t' /\ x' = AsX t'.
Proof. exact (xoptimizes_sub o t x'). Qed.
Print Assumptions C151_commutes.

(* the cast image finalizes before and after optimize() to the same samples with
   the same labels, one label per band if the bands have names *)
Theorem C151_same {V} (W : world V) o t x' : built t -> all_3d W t -> xoptimizes o (AsX t) x' ->
  exists a a' b n, finalize W t = Ok b /\
    xfinalize W (AsX t) = Ok (a, names t) /\ xfinalize W x' = Ok (a', names t) /\
    a_c a = Some n /\ same_array b a /\ same_array a a' /\
    match names t with Some nm => Z.of_nat (List.length nm) = n | None => True end.
Proof.
  intros Hb H3 Hx. apply xoptimizes_sub in Hx as (t' & Ho & ->).
  destruct (C27_same_array W o t t' Hb H3 Ho) as (a & a' & Ha & Ha' & S).
  destruct (C31_shape_is_metadata W t Hb H3) as (b & n & Eb & _ & _ & C & N). rewrite Ha in Eb. injection Eb as <-.
  assert (Hn : names t' = names t).
  { destruct Hb as (Hm & He). apply (C28_metadata_partial o t t' Hm (exact_ov_free _ He) Ho). }
  assert (C' : a_c a' = Some n) by (destruct S as (_ & _ & S & _); congruence).
  assert (R : same_array a a) by (repeat split).
  exists a, a', a, n. unfold xfinalize. cbn [x_sub]. rewrite Ha, Ha', Hn. cbn [bind].
  unfold atleast3. rewrite C, C', ?C, ?C'. destruct (names t) as [nm|].
  - rewrite N, Z.eqb_refl. auto 10.
  - auto 10.
Qed.
Print Assumptions C151_same.

(* two-dimensional data: accepted exactly when the one band has a name *)
Theorem C151_flat {V} (W : world V) id w h nm ov :
  w_flat W id = true ->
  (exists a, xfinalize W (AsX (img id w h [nm] ov)) = Ok (a, Some [nm]) /\ a_h a = h /\ a_w a = w /\ a_c a = Some 1 /\
     forall r c, a_pix a r c 0 = w_pix W id r c 0) /\
  xfinalize W (AsX (Leaf (MkLeaf id Data (w, h) None (Some 1) ov))) = Err ValueError.
Proof.
  intros Hf. split.
  - eexists. unfold xfinalize, img. cbn -[Z.eqb]. rewrite Hf. cbn. repeat split.
  - unfold xfinalize. cbn. now rewrite Hf.
Qed.
Print Assumptions C151_flat.

(* the tree of C27: three bands n, g, r of a cropped concatenation *)
Example C151_case : exists x', xoptimizes axis_oracle (AsX ex_tree) x' /\ x' <> AsX ex_tree /\
  rmap (fun p => (a_h (fst p), a_w (fst p), a_c (fst p), snd p)) (xfinalize ex_world x')
  = Ok (2, 4, Some 3, Some ["n"; "g"; "r"]%string).
Proof.
  eexists. split; [exists 30%nat, false; vm_compute; reflexivity|]. split; [intros H; vm_compute in H; discriminate|vm_compute; reflexivity].
Qed.
