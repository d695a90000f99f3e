(* C136: equality of channel specs *)
From Verif Require Import Py PyProofs ChanModel ChanSpec ChanProofs ChanProps EqModel.
Local Open Scope string_scope.

(* both stand for the same channels in the same order *)
Definition same_channels (f g : fused) : Prop := exists names, denotes_all (codes f) names /\ denotes_all (codes g) names.
Definition equal (f g : fused) : Prop := fused_eq f (CFused g) = Ok true.

(* "rgb" and "r|g|b" are the same channels but differ; comparing with a text raises. *)
Theorem C136_equal_refuted :
  (exists f g, good f /\ good g /\ same_channels f g /\ fused_eq f (CFused g) = Ok false) /\
  (forall f, fused_eq f CNoParsed = Err AttributeError).
Proof.
  split; [|reflexivity]. exists (mkF ["rgb"] false), (mkF ["r"; "g"; "b"] false).
  split; [discriminate|]. split; [discriminate|]. split; [|reflexivity]. exists ["r"; "g"; "b"].
  split; [apply (normalize_denotes (mkF ["rgb"] false))|apply (normalize_denotes (mkF ["r"; "g"; "b"] false))]; try discriminate; reflexivity.
Qed.
Print Assumptions C136_equal_refuted.

Lemma texts_eqb_eq a b : texts_eqb a b = true <-> a = b.
Proof.
  revert b. induction a as [|x a IH]; intros [|y b]; cbn; try (split; congruence).
  rewrite andb_true_iff, String.eqb_eq, IH. split; [intros (-> & ->); reflexivity|intros [= -> ->]; auto].
Qed.
Lemma equal_codes f g : equal f g <-> codes f = codes g.
Proof. unfold equal. cbn. rewrite <- texts_eqb_eq. split; [intros [= ->]; reflexivity|intros ->; reflexivity]. Qed.
Lemma denotes_all_fun l a b : denotes_all l a -> denotes_all l b -> a = b.
Proof.
  intros (ls & F & ->) (ls' & F' & ->). f_equal. revert ls' F'. induction F as [|c x l ls H _ IH]; intros ls' F'; inversion F' as [|? y ? ? H' F'']; subst; [reflexivity|].
  f_equal; [exact (denotes_functional _ _ _ H H')|now apply IH].
Qed.
Lemma normalized f n : good f -> normalize f = Ok n -> denotes_all (codes f) (codes n).
Proof. intros G H. apply (normalize_denotes f _ G). now rewrite H. Qed.

(* Equal specs stand for the same channels, and have the same text.  Normalized specs are
   equal exactly when the specs stand for the same channels, and so are the concise forms of
   specs with plain indexes.  Nothing is equal to None, and equality is an equivalence. *)
Theorem C136_equal_partial :
  (forall f g, good f -> good g -> equal f g -> fspec f = fspec g /\ forall names, denotes_all (codes f) names <-> denotes_all (codes g) names) /\
  (forall f g nf ng, good f -> good g -> normalize f = Ok nf -> normalize g = Ok ng -> (equal nf ng <-> same_channels f g)) /\
  (forall f g nf ng, good f -> good g -> normalize f = Ok nf -> normalize g = Ok ng ->
     Forall canonical (codes nf) -> Forall canonical (codes ng) ->
     exists cf cg, concise f = Ok cf /\ concise g = Ok cg /\ (equal cf cg <-> same_channels f g)) /\
  (forall f, fused_eq f CNone = Ok false) /\
  (forall f g, exists b, fused_eq f (CFused g) = Ok b) /\
  (forall f, equal f f) /\ (forall f g, equal f g -> equal g f) /\ (forall f g h, equal f g -> equal g h -> equal f h).
Proof.
  assert (S : forall f g nf ng, good f -> good g -> normalize f = Ok nf -> normalize g = Ok ng -> (codes nf = codes ng <-> same_channels f g)).
  { intros f g nf ng Gf Gg Hf Hg. pose proof (normalized f nf Gf Hf) as Df. pose proof (normalized g ng Gg Hg) as Dg. split.
    - intros E. exists (codes nf). split; [exact Df|]. now rewrite E.
    - intros (names & A & B). rewrite (denotes_all_fun _ _ _ Df A). exact (denotes_all_fun _ _ _ B Dg). }
  split; [|split; [|split; [|split; [reflexivity|split; [|split; [|split]]]]]].
  - intros f g Gf Gg E. apply equal_codes in E. unfold fspec. rewrite E. split; [reflexivity|tauto].
  - intros f g nf ng Gf Gg Hf Hg. rewrite equal_codes. now apply S.
  - intros f g nf ng Gf Gg Hf Hg Cf Cg. destruct (C03_concise_lossless f nf Gf Hf Cf) as (cf & Ef & Nf & _). destruct (C03_concise_lossless g ng Gg Hg Cg) as (cg & Eg & Ng & _).
    exists cf, cg. split; [exact Ef|]. split; [exact Eg|]. rewrite equal_codes, <- (S f g nf ng) by assumption. split.
    + intros E. pose proof (normalize_flag_irrelevant (codes cf) (isnorm cf) (isnorm cg)) as K.
      unfold concise in Ef, Eg. rewrite Hf in Ef. rewrite Hg in Eg. cbn [bind] in Ef, Eg.
      apply bind_ok in Ef as ([a o] & _ & Ef). apply bind_ok in Eg as ([a' o'] & _ & Eg).
      assert (If : isnorm cf = false) by (destruct a as [[[? ?] ?]|]; injection Ef as <-; reflexivity).
      assert (Ig : isnorm cg = false) by (destruct a' as [[[? ?] ?]|]; injection Eg as <-; reflexivity).
      destruct cf as [lf bf], cg as [lg bg]. cbn in *. subst. congruence.
    + intros E. unfold concise in Ef, Eg. rewrite Hf in Ef. rewrite Hg in Eg. cbn [bind] in Ef, Eg. rewrite E in Ef. congruence.
  - intros f g. cbn. eauto.
  - intros f. now apply equal_codes.
  - intros f g. rewrite !equal_codes. auto.
  - intros f g h. rewrite !equal_codes. congruence.
Qed.
Print Assumptions C136_equal_partial.
Example C136_case : let f := mkF ["rgb"; "a:2"] false in let g := mkF ["r"; "g"; "b"; "a.0"; "a.1"] false in
  same_channels f g /\ ~ equal f g /\
  exists n m, normalize f = Ok n /\ normalize g = Ok m /\ equal n m /\ Forall canonical (codes n).
Proof.
  cbn zeta. split; [exists ["r"; "g"; "b"; "a.0"; "a.1"]; split; [apply (normalize_denotes (mkF ["rgb"; "a:2"] false))|apply (normalize_denotes (mkF ["r"; "g"; "b"; "a.0"; "a.1"] false))]; try discriminate; reflexivity|].
  split; [discriminate|]. eexists _, _. repeat split; try (vm_compute; reflexivity).
  cbn. assert (K : forall i, canonical ("a" ++ String "." (Z_str i))) by (intros i; right; exists "a", i; auto).
  repeat apply Forall_cons; try (left; reflexivity); [exact (K 0%Z)|exact (K 1%Z)].
Qed.
