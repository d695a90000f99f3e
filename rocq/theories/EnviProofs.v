(* Proofs about the reader of ENVI headers. *)
From Verif Require Import Py PyProofs EnviModel EnviSpec.
Local Open Scope string_scope.

(** ** Strings *)

Lemma app_cons_s c a b : String c a ++ b = String c (a ++ b).
Proof. reflexivity. Qed.

Lemma snoc_cases s : s = "" \/ exists r c, s = r ++ String c "".
Proof.
  induction s as [|c s [-> |(r & c' & ->)]]; [now left| |]; right.
  - now exists "", c.
  - now exists (String c r), c'.
Qed.

Lemma snoc_inj r c r' c' : r ++ String c "" = r' ++ String c' "" -> r = r' /\ c = c'.
Proof.
  revert r'. induction r as [|a r IH]; intros [|a' r']; cbn; intros E.
  - injection E as ->. auto.
  - injection E as -> E. destruct r'; discriminate.
  - injection E as -> E. destruct r; discriminate.
  - injection E as -> E. apply IH in E as [-> ->]. auto.
Qed.

Lemma rstrip_snoc r c : rstrip (r ++ String c "") = if is_space c then rstrip r else r ++ String c "".
Proof.
  induction r as [|a r IH].
  - cbn. destruct (is_space c) eqn:E; reflexivity.
  - cbn [append rstrip]. rewrite IH. destruct (is_space c) eqn:E; [reflexivity|].
    destruct (r ++ String c "") eqn:Er; [destruct r; discriminate|reflexivity].
Qed.

Lemma white_app a b : white (a ++ b) <-> white a /\ white b.
Proof. induction a; cbn; tauto. Qed.

Lemma lstrip_white a s : white a -> lstrip (a ++ s) = lstrip s.
Proof. induction a as [|c a IH]; cbn [append white lstrip]; [auto|]. intros [-> H]. auto. Qed.

Lemma rstrip_white b : forall s, white b -> rstrip (s ++ b) = rstrip s.
Proof.
  induction b as [|c b IH]; intros s; cbn [white].
  - now rewrite app_empty_r_s.
  - intros [Hc Hb]. change (String c b) with (String c "" ++ b). rewrite app_assoc_s, IH by exact Hb.
    rewrite rstrip_snoc, Hc. reflexivity.
Qed.

Lemma tidy_strip s : tidy s -> strip s = s.
Proof.
  intros [H1 H2]. unfold strip. destruct s as [|c s]; [reflexivity|]. cbn [lstrip]. rewrite (H1 _ _ eq_refl).
  destruct (snoc_cases (String c s)) as [?|(r & c' & E)]; [discriminate|]. rewrite E, rstrip_snoc, (H2 _ _ E). reflexivity.
Qed.

Lemma strip_padded a s b : white a -> white b -> tidy s -> strip (a ++ s ++ b) = s.
Proof.
  intros Ha Hb Hs. unfold strip. rewrite lstrip_white by exact Ha. destruct s as [|c s].
  - cbn [append]. rewrite <- (app_empty_r_s b), lstrip_white by exact Hb. reflexivity.
  - cbn [append lstrip]. destruct Hs as [H1 H2]. pose proof (H1 _ _ eq_refl) as E. rewrite E.
    change (String c (s ++ b)) with (String c s ++ b). rewrite rstrip_white by exact Hb.
    pose proof (tidy_strip (String c s) (conj H1 H2)) as T. unfold strip in T. cbn [lstrip] in T. now rewrite E in T.
Qed.

Lemma rstrip_tidy_end s : forall c r, rstrip s = r ++ String c "" -> is_space c = false.
Proof.
  induction s as [|a s IH]; intros c r E; cbn in E; [destruct r; discriminate|].
  destruct (rstrip s) as [|x y] eqn:Es.
  - destruct (is_space a) eqn:Ea; [destruct r; discriminate|]. destruct r as [|? r]; [now injection E as <-|].
    injection E as _ E. destruct r; discriminate.
  - destruct r as [|b r]; [discriminate|]. injection E as _ E. now apply (IH c r).
Qed.

Lemma first_is_spec c s : first_is c s = true <-> starts c s.
Proof.
  unfold starts. destruct s as [|a s]; cbn; [split; [discriminate|intros [r E]; discriminate]|].
  rewrite Ascii.eqb_eq. split; [intros ->; eauto|intros [r E]; now injection E].
Qed.

Lemma last_is_snoc c r a : last_is c (r ++ String a "") = Ascii.eqb a c.
Proof.
  induction r as [|x r IH]; [reflexivity|]. cbn [append last_is]. destruct (r ++ String a "") eqn:E; [destruct r; discriminate|].
  exact IH.
Qed.

Lemma last_is_spec c s : last_is c s = true <-> ends c s.
Proof.
  unfold ends. destruct (snoc_cases s) as [-> |(r & a & ->)].
  - cbn. split; [discriminate|]. intros [r E]. destruct r; discriminate.
  - rewrite last_is_snoc, Ascii.eqb_eq. split; [intros ->; eauto|]. intros [r' E]. now apply snoc_inj in E.
Qed.

Lemma last_is_app c a b : b <> "" -> last_is c (a ++ b) = last_is c b.
Proof.
  intros Hb. destruct (snoc_cases b) as [?|(r & x & ->)]; [contradiction|].
  now rewrite app_assoc_s, !last_is_snoc.
Qed.

Lemma but_last_snoc r a : but_last (r ++ String a "") = r.
Proof.
  induction r as [|x r IH]; [reflexivity|]. cbn [append but_last]. destruct (r ++ String a "") eqn:E; [destruct r; discriminate|].
  now rewrite <- E, IH in *.
Qed.

Lemma lstrip_braces_app a s : lstrip_braces (String a s) = if is_brace a then lstrip_braces s else String a s.
Proof. reflexivity. Qed.

Lemma rstrip_braces_snoc r c : rstrip_braces (r ++ String c "") = if is_brace c then rstrip_braces r else r ++ String c "".
Proof.
  induction r as [|a r IH].
  - cbn. destruct (is_brace c) eqn:E; reflexivity.
  - cbn [append rstrip_braces]. rewrite IH. destruct (is_brace c) eqn:E; [reflexivity|].
    destruct (r ++ String c "") eqn:Er; [destruct r; discriminate|reflexivity].
Qed.

Lemma contains_snoc c r a : contains c (r ++ String a "") = (contains c r || Ascii.eqb a c)%bool.
Proof. rewrite contains_app. cbn. now rewrite orb_false_r. Qed.

Lemma rstrip_no_brace s : contains "{" s = false -> contains "}" s = false -> rstrip_braces s = s.
Proof.
  intros H1 H2. destruct (snoc_cases s) as [-> |(r & c & ->)]; [reflexivity|].
  rewrite contains_snoc in H1, H2. rewrite orb_false_iff in H1, H2. destruct H1 as [_ H1], H2 as [_ H2].
  rewrite rstrip_braces_snoc. unfold is_brace. now rewrite H1, H2.
Qed.

Lemma white_no c s : is_space c = false -> white s -> contains c s = false.
Proof.
  intros Hc. induction s as [|a s IH]; cbn; [reflexivity|]. intros [Ha Hs]. rewrite IH by exact Hs.
  destruct (Ascii.eqb a c) eqn:E; [apply Ascii.eqb_eq in E; congruence|reflexivity].
Qed.

Lemma strip_braces v : contains "{" v = false -> contains "}" v = false ->
  rstrip_braces (lstrip_braces ("{" ++ v ++ "}")) = v.
Proof.
  intros H1 H2. cbn [append]. rewrite lstrip_braces_app. change (is_brace "{") with true. cbn iota.
  assert (E : lstrip_braces (v ++ "}") = v ++ "}" \/ (v = "" /\ lstrip_braces (v ++ "}") = "")).
  { destruct v as [|c v]; [now right|]. left. cbn [append lstrip_braces]. cbn in H1, H2.
    apply orb_false_iff in H1 as [H1 _], H2 as [H2 _]. unfold is_brace. now rewrite H1, H2. }
  destruct E as [-> |[-> ->]]; [|reflexivity]. change "}" with (String "}" "") at 1. rewrite rstrip_braces_snoc.
  change (is_brace "}") with true. cbn iota. now apply rstrip_no_brace.
Qed.

Lemma strip_padded_item s str : padded s str -> strip str = s.
Proof. intros (a & b & Ha & Hb & -> & Hs). now apply strip_padded. Qed.

Lemma padded_no c s str : is_space c = false -> padded s str -> contains c s = false -> contains c str = false.
Proof.
  intros Hc (a & b & Ha & Hb & -> & _) Hs. rewrite !contains_app, Hs, (white_no _ _ Hc Ha), (white_no _ _ Hc Hb). reflexivity.
Qed.

(** ** Lines *)

Lemma lines_app l r : contains newline l = false -> lines (l ++ String newline r) = (l ++ String newline "") :: lines r.
Proof.
  induction l as [|c l IH]; [reflexivity|]. cbn [contains append lines]. intros H. apply orb_false_iff in H as [Hc Hl].
  rewrite Hc, (IH Hl). reflexivity.
Qed.

Lemma lines_file ls : Forall (fun l => contains newline l = false) ls ->
  lines (file_text ls) = map (fun l => l ++ String newline "") ls.
Proof.
  induction ls as [|l ls IH]; [reflexivity|]. intros H. inversion_clear H as [|? ? Hl Hls].
  cbn [file_text map]. rewrite lines_app by exact Hl. now rewrite IH.
Qed.

(** ** Fields *)

Definition nl (l : string) : string := l ++ String newline "".

Lemma white_nl d : white d -> white (d ++ String newline "").
Proof. intros H. apply white_app. split; [exact H|]. cbn. auto. Qed.

Lemma starts_nl c l : l <> "" -> starts c (nl l) <-> starts c l.
Proof.
  unfold starts, nl. destruct l as [|a l]; [congruence|]. intros _. cbn. split; intros [r E]; injection E as -> _; eauto.
Qed.

Lemma first_nl l : first_is ";" (nl l) = first_is ";" l.
Proof. destruct l; reflexivity. Qed.

Lemma assigns_split line k v : assigns line k v ->
  exists k' v', split_once "=" (nl line) = Some (k', v') /\ strip k' = k /\ strip v' = v /\ first_is ";" (nl line) = false.
Proof.
  intros (a & b & c & d & Ha & Hb & Hc & Hd & -> & Hk & Hek & Hv & Hs).
  exists (a ++ k ++ b), (c ++ v ++ (d ++ String newline "")). split.
  - assert (E : nl (a ++ k ++ b ++ "=" ++ c ++ v ++ d) = (a ++ k ++ b) ++ String "=" (c ++ v ++ (d ++ String newline ""))).
    { unfold nl. rewrite <- !app_assoc_s. reflexivity. }
    rewrite E. apply split_once_app. rewrite !contains_app, Hek, (white_no _ a) , (white_no _ b); auto.
  - split; [now apply strip_padded|]. split; [apply strip_padded; auto using white_nl|].
    rewrite first_nl. destruct (first_is ";" _) eqn:E; [|reflexivity]. apply first_is_spec in E. contradiction.
Qed.

Lemma fields_skip d line r : skipped line -> fields None d (nl line :: r) = fields None d r.
Proof.
  intros H. cbn [fields]. destruct (split_once "=" (nl line)) as [[k v]|] eqn:E; [|reflexivity].
  destruct H as [H|H].
  - rewrite first_nl. apply first_is_spec in H. now rewrite H.
  - assert (C : contains "=" (nl line) = false) by (unfold nl; rewrite contains_app, H; reflexivity).
    pose proof (contains_split_once "=" (nl line)) as S. rewrite E, C in S. discriminate.
Qed.

Lemma fields_text d line k v r : assigns line k v -> ~ starts "{" v ->
  fields None d (nl line :: r) = fields None (dict_set (lower k) (Text v) d) r.
Proof.
  intros H Hv. destruct (assigns_split _ _ _ H) as (k' & v' & E & <- & <- & Ef). cbn [fields]. rewrite E, Ef.
  destruct (first_is "{" (strip v')) eqn:E'; [apply first_is_spec in E'; contradiction|reflexivity].
Qed.

Lemma comments_skipped conts : continued [] conts -> forall d r, fields None d (map nl conts ++ r) = fields None d r.
Proof.
  intros H. remember [] as ps eqn:E. induction H as [|line ps ls Hl Hc IH|]; intros d r; [reflexivity| |discriminate].
  cbn [map List.app]. rewrite fields_skip by (left; exact Hl). now apply IH.
Qed.

(* the pieces after the first, each after a line break *)
Fixpoint tail_text (ps : list string) : string :=
  match ps with [] => "" | p :: r => String newline (p ++ tail_text r) end.

Lemma join_tail p ps : join newline (p :: ps) = p ++ tail_text ps.
Proof.
  revert p. induction ps as [|q ps IH]; intros p; [cbn; now rewrite app_empty_r_s|].
  rewrite join_cons by discriminate. cbn [tail_text]. now rewrite IH.
Qed.

(* a closing brace that is only at the very end is not at the end of an earlier piece *)
Lemma no_early s t x : s ++ t = x ++ "}" -> contains "}" x = false -> t <> "" -> last_is "}" s = false.
Proof.
  intros E Hx Ht. destruct (last_is "}" s) eqn:L; [|reflexivity]. apply last_is_spec in L as (r & ->).
  destruct (snoc_cases t) as [?|(t' & c & ->)]; [contradiction|]. rewrite app_assoc_s in E.
  change "}" with (String "}" "") in E at 2. apply snoc_inj in E as [E ->]. subst x.
  rewrite !contains_app in Hx. cbn in Hx. rewrite !orb_true_r in Hx. discriminate.
Qed.

Lemma fields_continued : forall ps conts, continued ps conts -> forall str key d r x,
  str ++ tail_text ps = x ++ "}" -> contains "}" x = false -> ps <> [] ->
  fields (Some (key, str)) d (map nl conts ++ r) = fields None (store key (x ++ "}") d) r.
Proof.
  induction 1 as [|line ps ls Hl Hc IH|a p b ps ls Ha Hb Hp Hs Hc IH]; intros str key d r x E Hx Hne; [congruence| |].
  - cbn [map List.app fields]. rewrite first_nl. apply first_is_spec in Hl. rewrite Hl. now apply IH.
  - cbn [map List.app fields]. rewrite first_nl.
    assert (Hf : first_is ";" (a ++ p ++ b) = false).
    { destruct (first_is ";" _) eqn:Ef; [apply first_is_spec in Ef; contradiction|reflexivity]. }
    rewrite Hf. assert (Es : strip (nl (a ++ p ++ b)) = p).
    { unfold nl. rewrite <- !app_assoc_s. apply strip_padded; auto using white_nl. }
    rewrite Es. cbn [tail_text] in E. change (String newline (p ++ tail_text ps)) with (String newline p ++ tail_text ps) in E.
    rewrite app_assoc_s in E. destruct ps as [|p' ps].
    + cbn [tail_text] in E. rewrite app_empty_r_s in E. rewrite E. change "}" with (String "}" "") at 2.
      rewrite last_is_snoc. cbn. now apply comments_skipped.
    + rewrite (no_early _ _ _ E Hx) by discriminate. apply IH; [exact E|exact Hx|discriminate].
Qed.

Lemma fields_braces d line k p ps conts x r : assigns line k p -> continued ps conts ->
  join newline (p :: ps) = "{" ++ x ++ "}" -> contains "}" x = false ->
  fields None d (nl line :: map nl conts ++ r) = fields None (store (lower k) ("{" ++ x ++ "}") d) r.
Proof.
  intros H Hc E Hx. destruct (assigns_split _ _ _ H) as (k' & v' & Es & <- & Ev & Ef). cbn [fields]. rewrite Es, Ef, Ev.
  rewrite join_tail in E.
  assert (Hp : first_is "{" p = true).
  { destruct p as [|c p]; [|cbn [append] in E; injection E as -> _; reflexivity].
    destruct ps as [|q ps]; [discriminate|]. cbn in E. discriminate. }
  rewrite Hp. destruct ps as [|q ps].
  - cbn [tail_text] in E. rewrite app_empty_r_s in E. rewrite E. rewrite app_assoc_s. change "}" with (String "}" "") at 2.
    rewrite last_is_snoc. cbn [Ascii.eqb]. change (Ascii.eqb "}" "}") with true. cbn iota. now apply comments_skipped.
  - rewrite app_assoc_s in E. assert (Hx' : contains "}" ("{" ++ x) = false) by (cbn; exact Hx).
    rewrite (no_early _ _ _ E Hx') by discriminate. rewrite app_assoc_s.
    apply fields_continued with (ps := q :: ps); [exact Hc|exact E|exact Hx'|discriminate].
Qed.

Lemma store_list k items strs d : k <> "description" -> items <> [] -> Forall2 padded items strs ->
  Forall (fun s => contains "," s = false /\ contains "}" s = false) items ->
  store k ("{" ++ join "," strs ++ "}") d = dict_set k (Items items) d /\ contains "}" (join "," strs) = false.
Proof.
  intros Hk Hi Hp Hn. assert (A : Forall (fun s => contains "," s = false) strs /\ Forall (fun s => contains "}" s = false) strs).
  { clear Hi. induction Hp as [|s str items strs Hs Hp IH]; [split; constructor|]. inversion_clear Hn as [|? ? [N1 N2] N3].
    destruct (IH N3) as [I1 I2]. split; constructor; auto.
    - now apply (padded_no "," s).
    - now apply (padded_no "}" s). }
  destruct A as [A1 A2]. split.
  - unfold store. destruct (String.eqb k "description") eqn:E; [apply String.eqb_eq in E; contradiction|]. do 2 f_equal.
    change ("{" ++ join "," strs ++ "}") with (String "{" (join "," strs ++ "}")). cbn [but_first].
    change "}" with (String "}" ""). rewrite but_last_snoc. rewrite split_join by first [exact A1 | destruct Hp; [congruence|discriminate]].
    clear - Hp. induction Hp as [|s str items strs Hs Hp IH]; [reflexivity|]. cbn [map]. now rewrite (strip_padded_item _ _ Hs), IH.
  - rewrite contains_join by discriminate. clear - A2. induction A2 as [|s l H _ IH]; [reflexivity|]. cbn. now rewrite H, IH.
Qed.

Lemma store_description k v str d : k = "description" -> padded v str ->
  contains "{" v = false -> contains "}" v = false ->
  store k ("{" ++ str ++ "}") d = dict_set k (Text v) d /\ contains "}" str = false.
Proof.
  intros -> Hp H1 H2. split; [|now apply (padded_no "}" v)]. unfold store. rewrite String.eqb_refl.
  rewrite strip_braces by (now apply (padded_no _ v)). now rewrite (strip_padded_item _ _ Hp).
Qed.

Lemma fields_written : forall fs ls, written fs ls -> forall d,
  fields None d (map nl ls) = Ok (fold_left (fun d kv => dict_set (fst kv) (snd kv) d) (lower_keys fs) d).
Proof.
  induction 1 as [|line fs ls Hs Hw IH|line k v fs ls Ha Hv Hw IH|line k p ps conts items strs fs ls Hk Ha Hc Hi Hp Hn Hj Hw IH
    |line k p ps conts v str fs ls Hk Ha Hc Hp H1 H2 Hj Hw IH]; intros d.
  - reflexivity.
  - cbn [map]. rewrite fields_skip by exact Hs. apply IH.
  - cbn [map]. rewrite (fields_text _ _ _ _ _ Ha Hv). apply IH.
  - cbn [map]. rewrite map_app. destruct (store_list (lower k) items strs d Hk Hi Hp Hn) as [E C].
    rewrite (fields_braces _ _ _ _ _ _ _ _ Ha Hc Hj C), E. apply IH.
  - cbn [map]. rewrite map_app. destruct (store_description (lower k) v str d Hk Hp H1 H2) as [E C].
    rewrite (fields_braces _ _ _ _ _ _ _ _ Ha Hc Hj C), E. apply IH.
Qed.

Lemma prefix_app a b : String.prefix a (a ++ b) = true.
Proof. induction a as [|c a IH]; [now destruct b|]. cbn. destruct (ascii_dec c c); [exact IH|congruence]. Qed.

Lemma strip_magic a x : white a -> String.prefix "ENVI" (strip (a ++ "ENVI" ++ x)) = true.
Proof.
  intros Ha. unfold strip. rewrite lstrip_white by exact Ha. change (lstrip ("ENVI" ++ x)) with ("ENVI" ++ x).
  assert (G : forall r c, is_space c = false -> rstrip (r ++ String c x) = r ++ String c (rstrip x)).
  { intros r c Hc. induction r as [|b r IH].
    - cbn. rewrite Hc. destruct (rstrip x); reflexivity.
    - cbn [append rstrip]. rewrite IH. destruct (r ++ String c (rstrip x)) eqn:E; [destruct r; discriminate|reflexivity]. }
  change ("ENVI" ++ x) with ("ENV" ++ String "I" x). rewrite G by reflexivity.
  change ("ENV" ++ String "I" (rstrip x)) with ("ENVI" ++ rstrip x). apply prefix_app.
Qed.

Lemma read_written a x fs ls : white a -> contains newline a = false -> contains newline x = false ->
  Forall (fun l => contains newline l = false) ls -> written fs ls ->
  read_header (file_text ((a ++ "ENVI" ++ x) :: ls)) = Ok (dict_of (lower_keys fs)).
Proof.
  intros Ha Na Nx Hn Hw. unfold read_header. rewrite lines_file.
  - cbn [map]. rewrite <- !app_assoc_s. rewrite strip_magic by exact Ha. exact (fields_written _ _ Hw []).
  - constructor; [|exact Hn]. now rewrite !contains_app, Na, Nx.
Qed.

(** ** Failures *)

Lemma ends_join str l : last_is "}" (str ++ String newline (strip l)) = last_is "}" (strip l).
Proof.
  rewrite last_is_app by discriminate. destruct (strip l); reflexivity.
Qed.

Lemma fields_error : forall ls,
  (forall str key d e, fields (Some (key, str)) d ls = Err e ->
     e = IndexError /\ (Forall no_close ls \/ exists l1 line l2, ls = (l1 ++ line :: l2)%list /\ opens line /\ Forall no_close l2)) /\
  (forall d e, fields None d ls = Err e ->
     e = IndexError /\ exists l1 line l2, ls = (l1 ++ line :: l2)%list /\ opens line /\ Forall no_close l2).
Proof.
  assert (W : forall line r, (exists l1 l l2, r = (l1 ++ l :: l2)%list /\ opens l /\ Forall no_close l2) ->
    exists l1 l l2, line :: r = (l1 ++ l :: l2)%list /\ opens l /\ Forall no_close l2).
  { intros line r (l1 & l & l2 & -> & H). exists (line :: l1), l, l2. auto. }
  induction ls as [|line r [IHp IHn]]; split.
  - intros str key d e H. injection H as <-. auto.
  - intros d e H. discriminate.
  - intros str key d e H. cbn [fields] in H. destruct (first_is ";" line) eqn:Ef.
    + apply IHp in H as [-> [H|H]]; (split; [reflexivity|]); [|right; auto].
      left. constructor; [left; now apply first_is_spec|exact H].
    + rewrite ends_join in H. destruct (last_is "}" (strip line)) eqn:El.
      * apply IHn in H as [-> H]. auto.
      * apply IHp in H as [-> [H|H]]; (split; [reflexivity|]); [|right; auto].
        left. constructor; [right; rewrite <- last_is_spec; congruence|exact H].
  - intros d e H. cbn [fields] in H. destruct (split_once "=" line) as [[k v]|] eqn:E.
    2:{ apply IHn in H as [-> H]. auto. }
    destruct (first_is ";" line) eqn:Ef; [apply IHn in H as [-> H]; auto|].
    destruct (first_is "{" (strip v)) eqn:Ev; [|apply IHn in H as [-> H]; auto].
    destruct (last_is "}" (strip v)) eqn:El; [apply IHn in H as [-> H]; auto|].
    apply IHp in H as [-> [H|H]]; (split; [reflexivity|]); [|auto].
    exists [], line, r. split; [reflexivity|]. split; [|exact H]. split; [rewrite <- first_is_spec; congruence|].
    exists k, v. split; [exact E|]. split; [now apply first_is_spec|]. rewrite <- last_is_spec. congruence.
Qed.

Lemma read_fails text e : read_header text = Err e ->
  (e = OtherError /\ forall l ls, lines text = l :: ls -> String.prefix "ENVI" (strip l) = false) \/
  (e = IndexError /\ exists l0 l1 line l2, lines text = (l0 :: l1 ++ line :: l2)%list /\ opens line /\ Forall no_close l2).
Proof.
  unfold read_header. destruct (lines text) as [|l ls].
  - intros [= <-]. left. split; [reflexivity|]. discriminate.
  - destruct (String.prefix "ENVI" (strip l)) eqn:E; intros H.
    + right. apply (proj2 (fields_error ls)) in H as [-> (l1 & line & l2 & -> & H)]. split; [reflexivity|].
      now exists l, l1, line, l2.
    + injection H as <-. left. split; [reflexivity|]. now intros ? ? [= <- <-].
Qed.

(* a list that is never closed *)
Lemma open_fails : forall l2 str key d, Forall no_close l2 -> last_is "}" str = false -> fields (Some (key, str)) d l2 = Err IndexError.
Proof.
  induction l2 as [|l r IH]; intros str key d H Hs; [reflexivity|]. inversion_clear H as [|? ? Hl Hr]. cbn [fields].
  destruct Hl as [Hl|Hl].
  - apply first_is_spec in Hl. rewrite Hl. now apply IH.
  - destruct (first_is ";" l); [now apply IH|]. rewrite ends_join.
    destruct (last_is "}" (strip l)) eqn:E; [apply last_is_spec in E; contradiction|]. apply IH; [exact Hr|].
    now rewrite ends_join.
Qed.

(** ** Paths *)

Lemma contains_slash_app a b : contains "/" (a ++ b) = (contains "/" a || contains "/" b)%bool.
Proof. apply contains_app. Qed.

Fixpoint all_dots (s : string) : bool :=
  match s with EmptyString => true | String c r => (Ascii.eqb c "." && all_dots r)%bool end.

Lemma root_none ext body : contains "." ext = false -> contains "/" ext = false -> root_of body ext = None.
Proof.
  revert body. induction ext as [|c ext IH]; intros body; [reflexivity|]. cbn [contains root_of]. intros H1 H2.
  apply orb_false_iff in H1 as [H1 H1'], H2 as [H2 H2']. rewrite H1, H2, IH by assumption. reflexivity.
Qed.

(* the file name without directories has a character other than a dot *)
Fixpoint named (body : bool) (s : string) : bool :=
  match s with
  | EmptyString => body
  | String c r => if Ascii.eqb c "/" then named false r
                  else if Ascii.eqb c "." then named body r else named true r
  end.

Lemma root_app ext : contains "." ext = false -> contains "/" ext = false -> forall s body,
  named body s = true -> root_of body (s ++ String "." ext) = Some s.
Proof.
  intros E1 E2. induction s as [|c s IH]; intros body; cbn [append named root_of].
  - intros ->. change (Ascii.eqb "." "/") with false. change (Ascii.eqb "." ".") with true. cbn iota.
    rewrite root_none by assumption. now rewrite E2.
  - destruct (Ascii.eqb c "/"); [intros H; now rewrite IH|].
    destruct (Ascii.eqb c "."); intros H; now rewrite IH.
Qed.

Lemma ends_with_app s e : ends_with e (s ++ e) = true.
Proof.
  induction s as [|c s IH]; cbn [append].
  - destruct e as [|c e]; [reflexivity|]. cbn [ends_with]. now rewrite String.eqb_refl.
  - cbn [ends_with]. now rewrite IH, orb_true_r.
Qed.

Lemma ends_with_spec e s : ends_with e s = true <-> exists r, s = r ++ e.
Proof.
  split; [|intros [r ->]; apply ends_with_app].
  induction s as [|c s IH]; cbn [ends_with]; rewrite orb_true_iff, String.eqb_eq; intros [-> |H]; try (now exists "").
  apply IH in H as [r ->]. now exists (String c r).
Qed.

Lemma fields_written_then : forall fs ls, written fs ls -> forall d r,
  fields None d (map nl ls ++ r) =
  fields None (fold_left (fun d kv => dict_set (fst kv) (snd kv) d) (lower_keys fs) d) r.
Proof.
  induction 1 as [|line fs ls Hs Hw IH|line k v fs ls Ha Hv Hw IH|line k p ps conts items strs fs ls Hk Ha Hc Hi Hp Hn Hj Hw IH
    |line k p ps conts v str fs ls Hk Ha Hc Hp H1 H2 Hj Hw IH]; intros d r.
  - reflexivity.
  - cbn [map List.app]. rewrite fields_skip by exact Hs. apply IH.
  - cbn [map List.app]. rewrite (fields_text _ _ _ _ _ Ha Hv). apply IH.
  - cbn [map List.app]. rewrite map_app, <- app_assoc. destruct (store_list (lower k) items strs d Hk Hi Hp Hn) as [E C].
    rewrite (fields_braces _ _ _ _ _ _ _ _ Ha Hc Hj C), E. apply IH.
  - cbn [map List.app]. rewrite map_app, <- app_assoc. destruct (store_description (lower k) v str d Hk Hp H1 H2) as [E C].
    rewrite (fields_braces _ _ _ _ _ _ _ _ Ha Hc Hj C), E. apply IH.
Qed.

Lemma strip_nl l : strip (nl l) = strip l.
Proof.
  unfold strip, nl. induction l as [|c l IH]; [reflexivity|]. cbn [append lstrip]. destruct (is_space c); [exact IH|].
  change (String c (l ++ String newline "")) with (String c l ++ String newline ""). apply rstrip_white. cbn. auto.
Qed.

Lemma no_close_nl l : no_close l -> no_close (nl l).
Proof.
  intros [H|H]; [left; apply first_is_spec; rewrite first_nl; now apply first_is_spec|right; now rewrite strip_nl].
Qed.

Lemma split_once_nl c l k v : Ascii.eqb newline c = false -> split_once c l = Some (k, v) -> split_once c (nl l) = Some (k, nl v).
Proof.
  intros Hc H. apply split_once_spec in H as [-> Hk]. unfold nl. rewrite <- app_assoc_s. now apply split_once_app.
Qed.

Lemma unclosed_fails a x fs ls line l2 : white a -> contains newline a = false -> contains newline x = false ->
  Forall (fun l => contains newline l = false) (ls ++ line :: l2) -> written fs ls ->
  opens line -> Forall no_close l2 ->
  read_header (file_text ((a ++ "ENVI" ++ x) :: ls ++ line :: l2)) = Err IndexError.
Proof.
  intros Ha Na Nx Hn Hw (Hs & k & v & E & Hv & He) Hl. unfold read_header. rewrite lines_file.
  - cbn [map]. rewrite <- !app_assoc_s. rewrite strip_magic by exact Ha. rewrite map_app.
    change (map (fun l => l ++ String newline "") ls) with (map nl ls).
    rewrite (fields_written_then _ _ Hw). cbn [map fields]. change (line ++ String newline "") with (nl line).
    rewrite (split_once_nl "=" _ _ _ eq_refl E), first_nl.
    destruct (first_is ";" line) eqn:Ef; [apply first_is_spec in Ef; contradiction|]. rewrite strip_nl.
    apply first_is_spec in Hv. rewrite Hv.
    destruct (last_is "}" (strip v)) eqn:El; [apply last_is_spec in El; contradiction|].
    apply open_fails; [|exact El]. clear - Hl. induction Hl; cbn [map]; constructor; auto. now apply no_close_nl.
  - constructor; [|exact Hn]. now rewrite !contains_app, Na, Nx.
Qed.

Lemma empty_list a b : white a -> white b ->
  fields None [] [("bands = {" ++ a ++ "}" ++ b) ++ String newline ""] = Ok [("bands", Items [""])].
Proof.
  intros Ha Hb. cbn [fields].
  assert (E : split_once "=" (("bands = {" ++ a ++ "}" ++ b) ++ String newline "") = Some ("bands ", " {" ++ a ++ "}" ++ (b ++ String newline ""))).
  { change (("bands = {" ++ a ++ "}" ++ b) ++ String newline "") with ("bands " ++ String "=" (" {" ++ ((a ++ "}" ++ b) ++ String newline ""))).
    rewrite <- !app_assoc_s. now apply split_once_app. }
  rewrite E. change (first_is ";" _) with false. cbn iota.
  assert (S : strip (" {" ++ a ++ "}" ++ (b ++ String newline "")) = "{" ++ a ++ "}").
  { change (" {" ++ a ++ "}" ++ (b ++ String newline "")) with (" " ++ (String "{" (a ++ "}" ++ (b ++ String newline "")))).
    assert (A : String "{" (a ++ "}" ++ (b ++ String newline "")) = ("{" ++ a ++ "}") ++ (b ++ String newline "")).
    { change ("{" ++ a ++ "}") with (String "{" (a ++ "}")). cbn [append]. now rewrite <- !app_assoc_s. }
    rewrite A. apply strip_padded; [cbn; auto|now apply white_nl|]. split.
    - intros c r [= <- _]. reflexivity.
    - intros c r Er. change ("{" ++ a ++ "}") with (("{" ++ a) ++ String "}" "") in Er. apply snoc_inj in Er as [_ <-]. reflexivity. }
  rewrite S. change (first_is "{" ("{" ++ a ++ "}")) with true. cbn iota. rewrite app_assoc_s. change "}" with (String "}" "") at 2.
  rewrite last_is_snoc. change (Ascii.eqb "}" "}") with true. cbn iota. change (lower (strip "bands ")) with "bands".
  unfold store. change (String.eqb "bands" "description") with false. cbn iota. rewrite <- app_assoc_s.
  change (but_first ("{" ++ (a ++ "}"))) with (a ++ String "}" ""). rewrite but_last_snoc.
  rewrite split_no_sep by (now apply white_no). cbn [map]. rewrite <- (app_empty_r_s a).
  change (strip (a ++ "")) with (strip (a ++ "" ++ "")). rewrite strip_padded; [reflexivity|exact Ha|exact I|]. split; [discriminate|intros c r; destruct r; discriminate].
Qed.

Lemma last_wins {V} (l1 l2 : list (string * V)) k v : ~ In k (map fst l2) ->
  dict_index k (dict_of (l1 ++ (k, v) :: l2)) = Ok v.
Proof.
  intros H. unfold dict_index, dict_of. rewrite fold_left_app. cbn [fold_left fst snd].
  generalize (fold_left (fun d kv => dict_set (fst kv) (snd kv) d) l1 []). intros d.
  enough (E : dict_get k (fold_left (fun d kv => dict_set (fst kv) (snd kv) d) l2 (dict_set k v d)) = Some v) by now rewrite E.
  assert (G : forall l d', ~ In k (map fst l) -> dict_get k d' = Some v ->
    dict_get k (fold_left (fun d kv => dict_set (fst kv) (snd kv) d) l d') = Some v).
  { clear. induction l as [|[k' v'] l IH]; intros d' Hn Hd; [exact Hd|]. cbn in *. apply IH; [tauto|].
    rewrite dict_get_set_other; [exact Hd|]. intros ->. tauto. }
  apply G; [exact H|apply dict_get_set_same].
Qed.
