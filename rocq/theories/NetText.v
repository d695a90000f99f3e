(* How the lines of a drawing are taken apart. *)
From Verif Require Import Py PyProofs NetModel NetSpec NetParseModel NetParseSpec.
From Coq Require Import Ascii ZifyBool.
Local Open Scope string_scope.

(** ** Occurrences *)

(* no occurrence of [w] in [x ++ rest] starts inside [x] *)
Fixpoint clear (w x rest : string) : Prop :=
  match x with
  | EmptyString => True
  | String _ x' => String.prefix w (x ++ rest) = false /\ clear w x' rest
  end.
Lemma clear_app w a b rest : clear w a (b ++ rest) -> clear w b rest -> clear w (a ++ b) rest.
Proof.
  induction a as [|c a IH]; cbn [append clear]; auto.
  intros (H1 & H2) H3. split; [|auto]. cbn [append] in *. now rewrite <- app_assoc_s.
Qed.
Lemma has_clear w x rest : clear w x rest -> has w (x ++ rest) = has w rest.
Proof.
  induction x as [|c x IH]; cbn [append clear]; auto.
  intros (H1 & H2). change (has w (String c (x ++ rest))) with (String.prefix w (String c (x ++ rest)) || has w (x ++ rest)).
  cbn [append] in H1. rewrite H1. apply IH, H2.
Qed.
Lemma prefix_app w rest : String.prefix w (w ++ rest) = true.
Proof.
  induction w as [|c w IH]; cbn [append String.prefix].
  - now destruct rest.
  - destruct (ascii_dec c c); [apply IH | congruence].
Qed.
Lemma has_here w rest : has w (w ++ rest) = true.
Proof.
  pose proof (prefix_app w rest) as H. destruct (w ++ rest) as [|c s] eqn:E.
  - change (has w "") with (String.prefix w "" || false). now rewrite H.
  - change (has w (String c s)) with (String.prefix w (String c s) || has w s). now rewrite H.
Qed.
Lemma has_app_r w x rest : has w rest = true -> has w (x ++ rest) = true.
Proof.
  intros H. induction x as [|c x IH]; cbn [append]; auto.
  change (has w (String c (x ++ rest))) with (String.prefix w (String c (x ++ rest)) || has w (x ++ rest)).
  rewrite IH. apply orb_true_r.
Qed.
Lemma has_prefix_false w s : has w s = false -> String.prefix w s = false.
Proof.
  intros H. destruct s as [|c s].
  - change (has w "") with (String.prefix w "" || false) in H. apply orb_false_iff in H. tauto.
  - change (has w (String c s)) with (String.prefix w (String c s) || has w s) in H.
    apply orb_false_iff in H. tauto.
Qed.
Lemma clear_has w s : w <> "" -> has w s = false -> clear w s "".
Proof.
  intros Hw. induction s as [|c s IH]; cbn [clear]; auto. intros H.
  rewrite app_empty_r_s. split; [now apply has_prefix_false|].
  change (has w (String c s)) with (String.prefix w (String c s) || has w s) in H.
  apply orb_false_iff in H. apply IH. tauto.
Qed.

Lemma pieces_clear w x rest : clear w x rest ->
  pieces w 0 (x ++ rest) = let '(p, l) := pieces w 0 rest in (x ++ p, l).
Proof.
  induction x as [|c x IH]; cbn [append clear].
  - intros _. now destruct (pieces w 0 rest).
  - intros (H1 & H2). cbn [pieces]. cbn [append] in H1. rewrite H1, (IH H2). now destruct (pieces w 0 rest).
Qed.
Lemma pieces_skip w a rest : pieces w (String.length a) (a ++ rest) = pieces w 0 rest.
Proof. induction a as [|c a IH]; cbn [append String.length pieces]; auto. Qed.
Lemma pieces_here w rest : w <> "" ->
  pieces w 0 (w ++ rest) = let '(p, l) := pieces w 0 rest in ("", (p :: l)%list).
Proof.
  intros Hw. pose proof (prefix_app w rest) as H. destruct w as [|c w]; [congruence|].
  cbn [append] in *. cbn [pieces]. rewrite H. cbn [String.length].
  replace (S (String.length w) - 1)%nat with (String.length w) by lia. now rewrite pieces_skip.
Qed.
Lemma split_at_two w x y : w <> "" -> clear w x (w ++ y) -> has w y = false -> split_at w (x ++ w ++ y) = [x; y].
Proof.
  intros Hw Hx Hy. unfold split_at. rewrite (pieces_clear w x (w ++ y)) by exact Hx.
  rewrite pieces_here by exact Hw.
  pose proof (pieces_clear w y "" (clear_has w y Hw Hy)) as E. rewrite !app_empty_r_s in E. rewrite E. cbn [pieces].
  now rewrite !app_empty_r_s.
Qed.

(** ** Blanks *)
Lemma rsplit_no_blank b : contains " " b = false -> rsplit_blank b = None.
Proof.
  induction b as [|c b IH]; cbn [contains rsplit_blank]; auto. intros H. apply orb_false_iff in H as (H1 & H2).
  now rewrite (IH H2), H1.
Qed.
Lemma rsplit_at a b : contains " " b = false -> rsplit_blank (a ++ String " " b) = Some (a, b).
Proof.
  intros H. induction a as [|c a IH]; cbn [append rsplit_blank].
  - now rewrite (rsplit_no_blank b H).
  - now rewrite IH.
Qed.
Lemma rstrip_keeps a b : b <> "" -> (forall c, contains c b = true -> is_space c = false) -> rstrip (a ++ b) = a ++ b.
Proof.
  intros Hb Hs. induction a as [|c a IH].
  - cbn [append]. clear -Hb Hs. induction b as [|c b IH]; [congruence|]. cbn [rstrip].
    destruct b as [|d b].
    + cbn. rewrite Hs; auto. cbn. now rewrite Ascii.eqb_refl.
    + rewrite IH; [reflexivity | discriminate | intros e He; apply Hs; cbn [contains] in *; rewrite He; apply orb_true_r].
  - cbn [append rstrip]. rewrite IH. destruct (a ++ b) eqn:E; auto. destruct a; [contradiction | discriminate].
Qed.
Lemma strip_keeps b : b <> "" -> (forall c, contains c b = true -> is_space c = false) -> strip b = b.
Proof.
  intros Hb Hs. unfold strip. replace (lstrip b) with b.
  - now apply (rstrip_keeps "").
  - destruct b as [|c b]; [congruence|]. cbn [lstrip]. rewrite Hs; auto. cbn. now rewrite Ascii.eqb_refl.
Qed.

(** ** Labels *)
Lemma plain_space s c : plain_label s -> contains c s = true -> is_space c = false.
Proof. intros (_ & _ & H) Hc. apply H in Hc. unfold drawing_char in Hc. apply orb_false_iff in Hc. tauto. Qed.
Lemma plain_glyph s c : plain_label s -> contains c s = true -> contains c "!|-<" = false.
Proof. intros (_ & _ & H) Hc. apply H in Hc. unfold drawing_char in Hc. apply orb_false_iff in Hc. tauto. Qed.
Lemma plain_blank s : plain_label s -> contains " " s = false.
Proof. intros H. destruct (contains " " s) eqn:E; auto. apply (plain_space s _ H) in E. discriminate. Qed.
Lemma plain_strip s : plain_label s -> strip s = s.
Proof. intros H. apply strip_keeps; [apply H | intros c; now apply plain_space]. Qed.
Lemma plain_not_vertical s v : plain_label s -> (v = "!" \/ v = "|") -> has s v = false.
Proof.
  intros H Hv. destruct s as [|c s]; [destruct H; congruence|].
  assert (Hc := plain_glyph _ c H). cbn [contains] in Hc. rewrite Ascii.eqb_refl in Hc. specialize (Hc eq_refl).
  cbn [contains] in Hc. repeat (apply orb_false_iff in Hc as (? & Hc)).
  destruct Hv as [-> | ->]; cbn [has String.prefix];
    (destruct (ascii_dec c _) as [E|]; [subst c; discriminate|]); reflexivity.
Qed.

(* what cannot start inside a label: a word that starts with a character no label
   has, or whose second character is a dash *)
Definition unlike (w : string) : bool :=
  match w with
  | EmptyString => false
  | String a w' => drawing_char a || match w' with String b _ => Ascii.eqb b "-" | EmptyString => false end
  end.
Definition starts_with (c : ascii) (s : string) : bool := match s with String a _ => Ascii.eqb a c | _ => false end.

Lemma prefix_cons a w c s : String.prefix (String a w) (String c s) = Ascii.eqb a c && String.prefix w s.
Proof.
  cbn [String.prefix]. destruct (ascii_dec a c) as [-> | Hn].
  - now rewrite Ascii.eqb_refl.
  - apply Ascii.eqb_neq in Hn. now rewrite Hn.
Qed.

Lemma label_clear_go w s rest : unlike w = true -> starts_with "-" rest = false ->
  (forall c, contains c s = true -> drawing_char c = false) -> clear w s rest.
Proof.
  intros Hw Hr. induction s as [|c s IH]; cbn [clear]; auto. intros H. split.
  2:{ apply IH. intros d Hd. apply H. cbn. rewrite Hd. apply orb_true_r. }
  destruct w as [|a w]; [discriminate|]. cbn [append unlike] in *. rewrite prefix_cons.
  destruct (Ascii.eqb a c) eqn:Eac; [|reflexivity]. apply Ascii.eqb_eq in Eac. subst a. cbn [andb].
  rewrite (H c) in Hw by (cbn; now rewrite Ascii.eqb_refl). cbn [orb] in Hw.
  destruct w as [|b w]; [discriminate|]. apply Ascii.eqb_eq in Hw. subst b.
  destruct s as [|d s]; cbn [append].
  - destruct rest as [|d rest]; [reflexivity|]. rewrite prefix_cons. cbn in Hr. rewrite Ascii.eqb_sym, Hr. reflexivity.
  - rewrite prefix_cons. destruct (Ascii.eqb "-" d) eqn:E; [|reflexivity]. apply Ascii.eqb_eq in E. subst d.
    specialize (H "-"%char). cbn in H. rewrite orb_true_r in H. discriminate H. reflexivity.
Qed.
Lemma label_clear w s rest : unlike w = true -> starts_with "-" rest = false -> plain_label s -> clear w s rest.
Proof. intros Hw Hr (_ & _ & H). now apply label_clear_go. Qed.

(** ** Lists of labels *)
Lemma concat_cons sep x y l : String.concat sep (x :: y :: l) = x ++ sep ++ String.concat sep (y :: l).
Proof. reflexivity. Qed.

Lemma comma_clear s rest : plain_label s -> starts_with " " rest = false -> clear ", " s rest.
Proof.
  intros H Hr. assert (Hb := plain_blank s H). clear H.
  induction s as [|c s IH]; cbn [clear]; auto. cbn [contains] in Hb. apply orb_false_iff in Hb as (_ & Hb).
  split; [|auto]. cbn [append]. rewrite prefix_cons. destruct (Ascii.eqb "," c); [|reflexivity]. cbn [andb].
  destruct s as [|d s]; cbn [append].
  - destruct rest as [|d rest]; [reflexivity|]. rewrite prefix_cons. cbn in Hr. rewrite Ascii.eqb_sym, Hr. reflexivity.
  - rewrite prefix_cons. cbn [contains] in Hb. apply orb_false_iff in Hb as (Hb & _). now rewrite Ascii.eqb_sym, Hb.
Qed.

Lemma split_labels l : l <> [] -> Forall plain_label l -> split_at ", " (String.concat ", " l) = l.
Proof.
  intros Hn HF. unfold split_at. induction l as [|x l IH]; [congruence|]. inversion HF as [|? ? Hx Hl]; subst.
  destruct l as [|y l].
  - cbn [String.concat]. pose proof (pieces_clear ", " x "" (comma_clear x "" Hx eq_refl)) as E.
    rewrite !app_empty_r_s in E. rewrite E. cbn [pieces]. now rewrite app_empty_r_s.
  - rewrite concat_cons, (pieces_clear ", " x) by now apply comma_clear.
    rewrite (pieces_here ", ") by discriminate. specialize (IH ltac:(discriminate) Hl).
    destruct (pieces ", " 0 (String.concat ", " (y :: l))) as [p q]. rewrite app_empty_r_s. now rewrite IH.
Qed.

(* words that do not occur in a list of labels *)
Lemma labels_clear w l : unlike w = true -> starts_with "," w = false ->
  (forall r, starts_with "-" r = false -> String.prefix w (String " " r) = false) ->
  Forall plain_label l -> has w (String.concat ", " l) = false.
Proof.
  intros Hw Hc Hb. induction l as [|x l IH]; intros HF.
  { destruct w; [discriminate | reflexivity]. }
  inversion HF as [|? ? Hx Hl]; subst.
  assert (He : has w "" = false) by (destruct w; [discriminate | reflexivity]).
  destruct l as [|y l].
  - cbn [String.concat]. rewrite <- (app_empty_r_s x), has_clear; auto. now apply label_clear.
  - rewrite concat_cons, has_clear by (now apply label_clear).
    rewrite (has_clear w ", "); [now apply IH|]. cbn [clear append]. repeat split.
    + destruct w as [|a w]; [discriminate|]. rewrite prefix_cons. cbn in Hc. now rewrite Hc.
    + apply Hb. inversion Hl as [|? ? Hy _]; subst.
      assert (Hd : starts_with "-" y = false).
      { destruct y as [|d y]; [destruct Hy; congruence|]. cbn. destruct (Ascii.eqb d "-") eqn:E; auto.
        apply Ascii.eqb_eq in E. subst d. assert (K := plain_glyph _ "-"%char Hy). discriminate K. reflexivity. }
      destruct l; cbn [String.concat]; auto. destruct y; [destruct Hy; congruence | exact Hd].
Qed.

(** ** The pieces of a drawing *)
Definition gl_of (d : bool) : glyphs := if d then ascii_directed else ascii_undirected.
Definition symbol (d : bool) : string := " " ++ gl_backedge (gl_of d) ++ " ".
Definition indents : list string := ["    "; ":   "; "|   "].
Definition segs (d : bool) : list string :=
  (indents ++ ["+-- "; gl_last (gl_of d); gl_mid (gl_of d)])%list.
(* words that occur in drawings of the other kind only, and the back edge *)
Definition words (d : bool) : list string :=
  (symbol d :: if d then ["L-- "; "|-- "] else ["L-> "; "|-> "; "<-"; "!"])%list.
Definition quiet (r : string) : Prop := starts_with "-" r = false /\ starts_with "<" r = false.

Lemma starts_prefix a w s : starts_with a s = false -> String.prefix (String a w) s = false.
Proof.
  destruct s as [|c s]; [reflexivity|]. intros H. rewrite prefix_cons. cbn in H. now rewrite Ascii.eqb_sym, H.
Qed.

Lemma seg_clear d w x r : In w (words d) -> In x (segs d) -> quiet r -> clear w x r.
Proof.
  intros Hw Hx (Q1 & Q2).
  destruct d; cbn in Hw, Hx;
    repeat (destruct Hw as [<- | Hw]; [| try contradiction]);
    repeat (destruct Hx as [<- | Hx]; [| try contradiction]); try contradiction;
    cbn [clear append]; repeat split; try reflexivity;
    rewrite prefix_cons; cbn [Ascii.eqb Bool.eqb andb]; try reflexivity;
    now apply starts_prefix.
Qed.
Lemma seg_quiet d x r : In x (segs d) -> quiet (x ++ r).
Proof.
  intros Hx. destruct d; cbn in Hx; repeat (destruct Hx as [<- | Hx]; [split; reflexivity|]); contradiction.
Qed.
Lemma indents_segs d x : In x indents -> In x (segs d).
Proof. intros H. apply in_or_app. now left. Qed.
Lemma sconcat_cons x l : String.concat "" (x :: l) = x ++ String.concat "" l.
Proof. destruct l; cbn [String.concat]; [now rewrite app_empty_r_s | reflexivity]. Qed.
Lemma pre_clear d w l r : In w (words d) -> Forall (fun x => In x (segs d)) l -> quiet r -> clear w (String.concat "" l) r.
Proof.
  intros Hw HF Hr. induction HF as [|x l Hx HF IH]; [exact I|]. rewrite sconcat_cons.
  apply clear_app; auto. apply (seg_clear d); auto.
  destruct HF as [|y l Hy HF]; [exact Hr|]. rewrite sconcat_cons, <- app_assoc_s. now apply (seg_quiet d).
Qed.
Lemma seg_blank d x : In x (segs d) -> exists y, x = y ++ " " /\ String.length y = 3%nat.
Proof.
  intros Hx. exists (substring 0 3 x).
  destruct d; cbn in Hx; repeat (destruct Hx as [<- | Hx]; [split; reflexivity|]); contradiction.
Qed.
Lemma slength_app a b : String.length (a ++ b) = (String.length a + String.length b)%nat.
Proof. induction a; cbn; auto. Qed.
Lemma pre_blank d l : l <> [] -> Forall (fun x => In x (segs d)) l ->
  exists y, String.concat "" l = y ++ " " /\ String.length y = (4 * List.length l - 1)%nat.
Proof.
  intros Hn HF. induction HF as [|x l Hx HF IH]; [congruence|]. rewrite sconcat_cons.
  destruct (seg_blank d x Hx) as (y & -> & Hy). destruct l as [|z l].
  - exists y. cbn [String.concat List.length]. rewrite app_empty_r_s. split; [reflexivity | lia].
  - destruct IH as (y' & E & Hy'); [discriminate|]. exists ((y ++ " ") ++ y'). rewrite E, app_assoc_s. split; [reflexivity|].
    rewrite !slength_app. cbn [String.length List.length] in *. lia.
Qed.

Lemma label_quiet s r : plain_label s -> quiet (s ++ r).
Proof.
  intros H. destruct s as [|c s]; [destruct H; congruence|]. assert (Hc := plain_glyph _ c H).
  cbn [contains] in Hc. rewrite Ascii.eqb_refl in Hc. specialize (Hc eq_refl). cbn [contains] in Hc.
  split; cbn; destruct (Ascii.eqb c _) eqn:E; auto; apply Ascii.eqb_eq in E; subst c; discriminate Hc.
Qed.
Lemma words_unlike d w : In w (words d) -> unlike w = true /\ w <> "".
Proof.
  intros H. destruct d; cbn in H; repeat (destruct H as [<- | H]; [split; [reflexivity | discriminate]|]); contradiction.
Qed.

Lemma label_end w s : unlike w = true -> plain_label s -> has w s = false.
Proof.
  intros Hw Hs. rewrite <- (app_empty_r_s s), has_clear by now apply label_clear.
  destruct w; [discriminate | reflexivity].
Qed.
(* the words in a line are those of its end *)
Lemma line_has d w l s r : In w (words d) -> Forall (fun x => In x (segs d)) l -> plain_label s ->
  starts_with "-" r = false -> has w (String.concat "" l ++ s ++ r) = has w r.
Proof.
  intros Hw HF Hs Hr. destruct (words_unlike d w Hw) as (Hu & _). rewrite has_clear.
  - rewrite has_clear; auto. now apply label_clear.
  - apply (pre_clear d); auto. now apply label_quiet.
Qed.

Lemma labels_no_word d w l : In w (words d) -> Forall plain_label l -> has w (String.concat ", " l) = false.
Proof.
  intros Hw HF. destruct (words_unlike d w Hw) as (Hu & _).
  destruct (string_dec w " <- ") as [-> | N1].
  { (* the blank of the separator is followed by a label *)
    clear -HF. induction HF as [|x l Hx HF IH]; [reflexivity|]. destruct HF as [|y l Hy HF].
    - cbn [String.concat]. now apply label_end.
    - rewrite concat_cons, has_clear by now apply label_clear. rewrite (has_clear " <- " ", "); [exact IH|].
      cbn [clear append]. repeat split. rewrite prefix_cons. cbn [Ascii.eqb Bool.eqb andb]. apply starts_prefix.
      destruct l; cbn [String.concat]; [rewrite <- (app_empty_r_s y)|]; now apply label_quiet. }
  apply labels_clear; auto.
  - destruct d; cbn in Hw; repeat (destruct Hw as [<- | Hw]; [reflexivity|]); contradiction.
  - intros r Hr. destruct d; cbn in Hw; repeat (destruct Hw as [<- | Hw]; [try (now elim N1); rewrite prefix_cons; cbn [Ascii.eqb Bool.eqb andb]; try reflexivity; now apply starts_prefix|]); contradiction.
Qed.

(* the end of a line *)
Definition tail (d : bool) (l : list string) : string :=
  match l with [] => "" | _ => symbol d ++ String.concat ", " l end.
Lemma tail_no_word d w l : In w (List.tl (words d)) -> Forall plain_label l -> has w (tail d l) = false.
Proof.
  intros Hw HF. destruct l as [|x l].
  { destruct d; cbn in Hw; repeat (destruct Hw as [<- | Hw]; [reflexivity|]); contradiction. }
  unfold tail. rewrite has_clear.
  - apply (labels_no_word d); auto. now right.
  - assert (Hx : quiet (String.concat ", " (x :: l))).
    { inversion HF; subst. destruct l; cbn [String.concat]; [rewrite <- (app_empty_r_s x)|]; now apply label_quiet. }
    destruct Hx as (Q1 & Q2).
    destruct d; cbn in Hw; repeat (destruct Hw as [<- | Hw]; [cbn [symbol gl_of ascii_directed ascii_undirected gl_backedge append clear]; repeat split; try reflexivity|]); try contradiction.
Qed.

(** ** Taking lines apart *)
Section Lines.
Context (d : bool) (l : list string) (Hl : l <> []) (HF : Forall (fun x => In x (segs d)) l).
Let pre := String.concat "" l.

Lemma scan_node s others : plain_label s -> Forall plain_label others ->
  exists p, scan (gl_of d) (pre ++ s ++ tail d others) = Ok (p, s, others) /\
    String.length p = (4 * List.length l - 1)%nat.
Proof.
  intros Hs Ho. destruct (pre_blank d l Hl HF) as (y & Ey & Hy). exists y. split; [|exact Hy].
  assert (Hsym : In (symbol d) (words d)) by now left.
  unfold scan. change (" " ++ gl_backedge (gl_of d) ++ " ") with (symbol d).
  unfold pre. rewrite (line_has d); auto.
  2:{ destruct others; [reflexivity|]. unfold tail. now destruct d. }
  destruct others as [|o others].
  - cbn [tail]. assert (E0 : has (symbol d) "" = false) by now destruct d. rewrite E0.
    rewrite Ey, app_empty_r_s, <- app_assoc_s. cbn [append]. rewrite rsplit_at by now apply plain_blank.
    now rewrite plain_strip.
  - cbn [tail]. rewrite has_here. rewrite app_assoc_s, split_at_two.
    + rewrite rstrip_keeps; [|apply Hs | intros c; now apply plain_space].
      rewrite Ey, <- app_assoc_s. cbn [append]. rewrite rsplit_at by now apply plain_blank.
      rewrite plain_strip, split_labels by (auto; discriminate).
      f_equal. f_equal. clear -Ho. induction Ho; cbn [map]; [reflexivity|]. now rewrite plain_strip, IHHo.
    + now destruct d.
    + apply clear_app; [apply (pre_clear d); auto; now apply label_quiet|].
      apply label_clear; auto; now destruct d.
    + now apply (labels_no_word d).
Qed.

Lemma scan_ell : scan (gl_of d) (pre ++ " ...") = Ok (pre, "...", []) /\ String.length pre = (4 * List.length l)%nat.
Proof.
  destruct (pre_blank d l Hl HF) as (y & Ey & Hy). split.
  - unfold scan. change (" " ++ gl_backedge (gl_of d) ++ " ") with (symbol d). unfold pre.
    rewrite has_clear.
    + assert (E0 : has (symbol d) " ..." = false) by now destruct d. rewrite E0.
      change " ..." with (String " " "..."). rewrite rsplit_at by reflexivity. reflexivity.
    + apply (pre_clear d); auto; [now left | split; reflexivity].
  - unfold pre. rewrite Ey, slength_app, Hy. cbn. destruct l; [congruence|]. cbn [List.length]. lia.
Qed.

Lemma scan_vertical : exists p, scan (gl_of d) (pre ++ gl_vertical (gl_of d)) = Ok (p, gl_vertical (gl_of d), []).
Proof.
  destruct (pre_blank d l Hl HF) as (y & Ey & Hy). exists y.
  unfold scan. change (" " ++ gl_backedge (gl_of d) ++ " ") with (symbol d). unfold pre.
  rewrite has_clear by (apply (pre_clear d); auto; [now left | now destruct d]).
  assert (E0 : has (symbol d) (gl_vertical (gl_of d)) = false) by now destruct d. rewrite E0.
  rewrite Ey, <- app_assoc_s. cbn [append]. rewrite rsplit_at by now destruct d. now destruct d.
Qed.

Lemma not_empty r : r <> "" -> String.eqb (pre ++ r) (gl_empty (gl_of d)) = false.
Proof.
  intros Hr. apply String.eqb_neq. intros E. apply (f_equal String.length) in E. rewrite slength_app in E.
  destruct (pre_blank d l Hl HF) as (y & Ey & Hy). unfold pre in E. rewrite Ey, slength_app, Hy in E.
  destruct l; [congruence|]. destruct d; cbn in E; lia.
Qed.
End Lines.
