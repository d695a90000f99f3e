(* Lemmas about the sensor-channel model. *)
From Verif Require Import SensorModel SensorSpec PyProofs ChanProofs ChanStreamProofs EncodeProofs.
Local Open Scope string_scope.

(** ** Terminals *)
Lemma all_chars_no (p : ascii -> bool) d s : p d = false -> all_chars p s = true -> contains d s = false.
Proof.
  intros Hd. induction s as [|c s IH]; cbn; [reflexivity|]. intros H.
  apply andb_true_iff in H as [Hc Hs]. rewrite (IH Hs), orb_false_r.
  destruct (Ascii.eqb c d) eqn:E; [apply Ascii.eqb_eq in E; congruence|reflexivity].
Qed.
Lemma iden_all s : is_iden s = true -> all_chars iden_rest s = true.
Proof.
  destruct s as [|c s]; cbn; [discriminate|]. intros H. apply andb_true_iff in H as [H1 H2].
  unfold iden_rest at 1. now rewrite H1, H2.
Qed.
Lemma iden_no d s : iden_rest d = false -> is_iden s = true -> contains d s = false.
Proof. intros Hd H. eapply all_chars_no; [exact Hd|now apply iden_all]. Qed.
Lemma int_all s : is_int s = true -> all_chars dec_digit s = true.
Proof. destruct s; [discriminate|]. trivial. Qed.
Lemma int_no d s : dec_digit d = false -> is_int s = true -> contains d s = false.
Proof. intros Hd H. eapply all_chars_no; [exact Hd|now apply int_all]. Qed.
Lemma iden_not_empty s : is_iden s = true -> s <> "".
Proof. intros H ->. discriminate. Qed.
Lemma iden_head s : is_iden s = true -> exists c t, s = String c t /\ iden_start c = true.
Proof. destruct s as [|c s]; cbn; [discriminate|]. intros H. apply andb_true_iff in H as [H1 H2]. eauto. Qed.
Lemma int_head s : is_int s = true -> exists c t, s = String c t /\ dec_digit c = true.
Proof. destruct s as [|c s]; cbn; [discriminate|]. intros H. apply andb_true_iff in H as [H1 H2]. eauto. Qed.

Lemma dec_digit_is c : dec_digit c = is_digit c.
Proof.
  unfold dec_digit, in_class, is_digit, digit_val.
  now destruct ((48 <=? N_of_ascii c) && (N_of_ascii c <=? 57))%N.
Qed.
Lemma all_digits_chars s : all_chars dec_digit s = all_digits s.
Proof. induction s as [|c s IH]; cbn; [reflexivity|]. now rewrite dec_digit_is, IH. Qed.
Lemma parse_digits_total s : forall v, all_digits s = true -> exists n, parse_digits v s = Some n.
Proof.
  induction s as [|c s IH]; cbn; intros v H; [eauto|]. apply andb_true_iff in H as [Hc Hs].
  unfold is_digit in Hc. destruct (digit_val c); [|discriminate]. now apply IH.
Qed.
Lemma py_int_digits s : is_int s = true -> exists z, py_int s = Ok z /\ (0 <= z)%Z.
Proof.
  intros H. destruct (int_head _ H) as (c & t & -> & Hc). apply int_all in H.
  rewrite all_digits_chars in H. cbn in H. apply andb_true_iff in H as [Hd Ht].
  unfold py_int. cbn [lstrip]. rewrite (digit_not_space _ Hd).
  rewrite rstrip_digits by (cbn; now rewrite Hd, Ht).
  rewrite (digit_neq c "-") by (trivial || reflexivity).
  rewrite (digit_neq c "+") by (trivial || reflexivity).
  cbn [parse_nat]. unfold is_digit in Hd. destruct (digit_val c) as [d|]; [|discriminate].
  destruct (parse_digits_total t d Ht) as (n & ->). eexists. split; [reflexivity|lia].
Qed.
Lemma int_value_lit s : is_int s = true -> int_lit s (int_value s) /\ (0 <= int_value s)%Z.
Proof. intros H. destruct (py_int_digits _ H) as (z & E & Hz). unfold int_lit, int_value. rewrite E. auto. Qed.

Lemma Z_str_int z : (0 <= z)%Z -> is_int (Z_str z) = true.
Proof.
  intros H. assert (D : all_digits (Z_str z) = true).
  { destruct z as [|p|p]; cbn [Z_str]; try apply N_str_digits. lia. }
  pose proof (Z_str_nonempty z) as Hn. destruct (Z_str z) as [|c t]; [congruence|].
  unfold is_int. now rewrite all_digits_chars.
Qed.

(** ** Splitting at top-level commas *)
Fixpoint scan (b : bool) (s : string) : option bool :=
  match s with
  | "" => Some b
  | String c s' =>
      if Ascii.eqb c "," && negb b then None
      else scan (if Ascii.eqb c "(" then true else if Ascii.eqb c ")" then false else b) s'
  end.
Lemma scan_app s : forall b t,
  scan b (s ++ t) = match scan b s with Some b' => scan b' t | None => None end.
Proof. induction s as [|c s IH]; intros b t; cbn; [reflexivity|]. destruct (_ && _); [reflexivity|apply IH]. Qed.
Lemma scan_plain b s : contains "(" s = false -> contains ")" s = false -> (b = true \/ contains "," s = false) ->
  scan b s = Some b.
Proof.
  induction s as [|c s IH]; cbn; [reflexivity|]. intros H1 H2 H3.
  apply orb_false_iff in H1 as [H1 H1']. apply orb_false_iff in H2 as [H2 H2']. rewrite H1, H2.
  replace (_ && _) with false; [apply IH; trivial; destruct H3 as [H3|H3]; [auto|right; now apply orb_false_iff in H3]|].
  destruct H3 as [-> | H3]; [now rewrite andb_false_r|]. apply orb_false_iff in H3 as [-> _]. reflexivity.
Qed.
Lemma split_top_ne b s : split_top b s <> [].
Proof. destruct s as [|c s]; cbn; [discriminate|]. destruct (_ && _); [discriminate|]. destruct split_top; discriminate. Qed.
Lemma split_top_scan s : forall b b' t, scan b s = Some b' ->
  split_top b (s ++ t) = match split_top b' t with h :: r => (s ++ h) :: r | [] => [] end.
Proof.
  induction s as [|c s IH]; cbn; intros b b' t H.
  - injection H as <-. now destruct (split_top b t).
  - destruct (_ && _); [discriminate|]. rewrite (IH _ _ _ H).
    pose proof (split_top_ne b' t). now destruct (split_top b' t).
Qed.
Lemma split_top_join l : l <> [] -> Forall (fun s => scan false s = Some false) l ->
  split_top false (join "," l) = l.
Proof.
  induction l as [|x l IH]; intros Hn H; [congruence|]. apply Forall_cons_iff in H as (Hx & Hl).
  destruct l as [|y l].
  - cbn [join]. rewrite <- (app_empty_r_s x) at 1. rewrite (split_top_scan _ _ _ _ Hx). cbn. now rewrite app_empty_r_s.
  - rewrite join_cons by discriminate. rewrite (split_top_scan _ _ _ _ Hx).
    change (split_top false (String "," (join "," (y :: l)))) with ("" :: split_top false (join "," (y :: l))).
    cbn [app]. rewrite IH by (discriminate || trivial). now rewrite app_empty_r_s.
Qed.
Lemma join_split_top s : forall b, join "," (split_top b s) = s.
Proof.
  induction s as [|c s IH]; intros b; [reflexivity|]. cbn [split_top].
  destruct (Ascii.eqb c "," && negb b) eqn:E.
  - apply andb_true_iff in E as [E _]. apply Ascii.eqb_eq in E. subst.
    rewrite join_cons by apply split_top_ne. now rewrite IH.
  - set (b' := if Ascii.eqb c "(" then _ else _). specialize (IH b').
    pose proof (split_top_ne b' s). destruct (split_top b' s) as [|h [|h2 r]]; [congruence| |].
    + cbn in *. congruence.
    + rewrite join_cons in IH by discriminate. rewrite join_cons by discriminate. cbn [append]. now rewrite IH.
Qed.

(** ** Code texts *)
Lemma code_no d c : wf_code c -> iden_rest d = false -> d <> "."%char -> d <> ":"%char -> dec_digit d = false ->
  contains d (text_code c) = false.
Proof.
  intros Hw Hd H1 H2 Hi.
  assert (E1 : Ascii.eqb "." d = false) by (apply Ascii.eqb_neq; congruence).
  assert (E2 : Ascii.eqb ":" d = false) by (apply Ascii.eqb_neq; congruence).
  destruct c as [id|id i|id b|sep id a b]; cbn [text_code wf_code] in *.
  - now apply iden_no.
  - destruct Hw as (Ha & Hb). rewrite contains_app, (iden_no _ _ Hd Ha). cbn [append contains]. now rewrite E1, (int_no _ _ Hi Hb).
  - destruct Hw as (Ha & Hb). rewrite contains_app, (iden_no _ _ Hd Ha). cbn [append contains]. now rewrite E2, (int_no _ _ Hi Hb).
  - destruct Hw as (Ha & Hb & Hc & Hs). rewrite contains_app, (iden_no _ _ Hd Ha). cbn [append contains].
    rewrite contains_app, (int_no _ _ Hi Hb). cbn [append contains]. rewrite E2, (int_no _ _ Hi Hc).
    cbn [In] in Hs. destruct Hs as [<- | [<- | []]]; now rewrite ?E1, ?E2.
Qed.

Lemma parse_text_code c : wf_code c -> parse_code (text_code c) = Ok c.
Proof.
  assert (Nd : forall id, is_iden id = true -> contains "." id = false) by (intros; now apply iden_no).
  assert (Nc : forall id, is_iden id = true -> contains ":" id = false) by (intros; now apply iden_no).
  assert (Id : forall n, is_int n = true -> contains "." n = false) by (intros; now apply int_no).
  assert (Ic : forall n, is_int n = true -> contains ":" n = false) by (intros; now apply int_no).
  destruct c as [id|id i|id b|sep id a b]; cbn [text_code wf_code]; unfold parse_code; intros H.
  - rewrite split_no_sep by auto. rewrite split_no_sep by auto. unfold check. now rewrite H.
  - destruct H as (H1 & H2). change ("." ++ i) with (String "." i).
    rewrite (split_no_sep ":") by (rewrite contains_app, Nc by trivial; cbn; auto).
    rewrite split_app, split_no_sep by auto. unfold check. now rewrite H1, H2.
  - destruct H as (H1 & H2). change (":" ++ b) with (String ":" b).
    rewrite split_app, split_no_sep by auto. rewrite split_no_sep by auto. unfold check. now rewrite H1, H2.
  - destruct H as (H1 & H2 & H3 & Hs). change (":" ++ b) with (String ":" b).
    destruct Hs as [<- | [<- | []]].
    + replace (id ++ String "." (a ++ String ":" b)) with ((id ++ String "." a) ++ String ":" b)
        by now rewrite <- app_assoc_s.
      rewrite (split_app ":") by (rewrite contains_app, Nc by trivial; cbn; auto). rewrite split_no_sep by auto.
      rewrite split_app, split_no_sep by auto. unfold check. now rewrite H1, H2, H3.
    + rewrite split_app by auto. rewrite split_app by auto. rewrite split_no_sep by auto.
      unfold check. now rewrite H1, H2, H3.
Qed.

Lemma check_ok {A} b (x y : A) : check b x = Ok y -> b = true /\ x = y.
Proof. unfold check, bad. destruct b; [|discriminate]. intros H. injection H. auto. Qed.

Lemma code_parse_text s c : parse_code s = Ok c -> s = text_code c /\ wf_code c.
Proof.
  unfold parse_code. pose proof (join_split ":" s) as J.
  destruct (split ":" s) as [|x [|b [|b' [|]]]]; try discriminate.
  - cbn in J. subst x. pose proof (join_split "." s) as J.
    destruct (split "." s) as [|i [|n [|]]]; try discriminate; intros H; apply check_ok in H as (H & <-); cbn in J; subst s.
    + auto.
    + apply andb_true_iff in H as (H1 & H2). cbn. auto.
  - cbn in J. subst s. pose proof (join_split "." x) as J.
    destruct (split "." x) as [|i [|n [|]]]; try discriminate; intros H; apply check_ok in H as (H & <-); cbn in J; subst x.
    + apply andb_true_iff in H as (H1 & H2). cbn. auto.
    + apply andb_true_iff in H as (H & H3). apply andb_true_iff in H as (H1 & H2). cbn.
      rewrite <- app_assoc_s. cbn. auto 8.
  - intros H. apply check_ok in H as (H & <-). cbn in J. subst s.
    apply andb_true_iff in H as (H & H3). apply andb_true_iff in H as (H1 & H2). cbn. auto 8.
Qed.

(** ** Groups *)
Lemma some_map {A B} (f : A -> B) (P : B -> Prop) l : some (fun a => P (f a)) l -> some P (map f l).
Proof. intros (Hn & H). split; [destruct l; [congruence|discriminate]|]. now apply Forall_map. Qed.
Lemma group_no d g : some wf_code g -> iden_rest d = false -> d <> "."%char -> d <> ":"%char -> d <> "|"%char ->
  dec_digit d = false -> contains d (text_group g) = false.
Proof.
  intros (_ & H) H1 H2 H3 H4 H5. unfold text_group. rewrite contains_join by trivial.
  apply not_true_is_false. intros E. apply existsb_exists in E as (x & Hx & E).
  apply in_map_iff in Hx as (c & <- & Hc). rewrite Forall_forall in H.
  rewrite code_no in E by auto. discriminate.
Qed.
Lemma mapR_text {A} (f : string -> result A) (tx : A -> string) l :
  Forall (fun a => f (tx a) = Ok a) l -> mapR f (map tx l) = Ok l.
Proof. induction 1 as [|a l Ha _ IH]; cbn; [reflexivity|]. now rewrite Ha, IH. Qed.
Lemma parse_text_group g : some wf_code g -> parse_group (text_group g) = Ok g.
Proof.
  intros (Hn & H). unfold parse_group, text_group. rewrite split_join.
  - apply mapR_text. eapply Forall_impl; [|exact H]. apply parse_text_code.
  - destruct g; [congruence|discriminate].
  - apply Forall_map. eapply Forall_impl; [|exact H]. intros c Hc. now apply code_no.
Qed.
Lemma text_mapR {A} (f : string -> result A) (tx : A -> string) (P : A -> Prop) c s l :
  (forall x a, f x = Ok a -> x = tx a /\ P a) -> mapR f (split c s) = Ok l ->
  s = join c (map tx l) /\ some P l.
Proof.
  intros Hf H. apply mapR_Forall2 in H. rewrite <- (join_split c s).
  pose proof (split_nonempty c s) as Hn. revert H Hn. generalize (split c s). intros xs H Hn.
  assert (E : xs = map tx l /\ Forall P l).
  { clear Hn. induction H as [|x a xs l Hx _ IH]; [auto|]. destruct IH as (-> & HP). apply Hf in Hx as (-> & Ha). auto. }
  destruct E as (-> & HP). split; [reflexivity|]. split; [|trivial]. now destruct l.
Qed.
Lemma group_parse_text s g : parse_group s = Ok g -> s = text_group g /\ some wf_code g.
Proof. apply text_mapR. apply code_parse_text. Qed.
Lemma parse_text_groups gs : some (some wf_code) gs -> parse_groups (join "," (map text_group gs)) = Ok gs.
Proof.
  intros (Hn & H). unfold parse_groups. rewrite split_join.
  - apply mapR_text. eapply Forall_impl; [|exact H]. apply parse_text_group.
  - destruct gs; [congruence|discriminate].
  - apply Forall_map. eapply Forall_impl; [|exact H]. intros c Hc. now apply group_no.
Qed.
Lemma groups_parse_text s gs : parse_groups s = Ok gs -> s = join "," (map text_group gs) /\ some (some wf_code) gs.
Proof. apply text_mapR. apply group_parse_text. Qed.

Lemma group_head g : some wf_code g -> exists c t, text_group g = String c t /\ iden_start c = true.
Proof.
  intros (Hn & H). destruct g as [|c g]; [congruence|]. apply Forall_cons_iff in H as (Hc & _).
  assert (E : exists a t, text_code c = String a t /\ iden_start a = true).
  { destruct c as [id|id i|id b|sep id a b]; cbn [text_code wf_code] in *;
      [apply iden_head; trivial| | | ]; destruct Hc as (Hi & _); destruct (iden_head _ Hi) as (a' & t & -> & Ha);
      cbn; eauto. }
  destruct E as (a & t & E & Ha). unfold text_group. cbn [map]. destruct g; cbn [map join]; rewrite E; cbn; eauto.
Qed.
Lemma iden_start_not_paren c : iden_start c = true -> Ascii.eqb c "(" = false.
Proof. intros H. apply Ascii.eqb_neq. intros ->. discriminate. Qed.
Lemma parse_rhs_plain c t : Ascii.eqb c "(" = false ->
  parse_rhs (String c t) = rmap OneGroup (parse_group (String c t)).
Proof. intros H. apply Ascii.eqb_neq in H. destruct c as [[] [] [] [] [] [] [] []]; try reflexivity. congruence. Qed.
Lemma parse_item_plain c t : Ascii.eqb c "(" = false ->
  parse_item (String c t) =
  match split_once ":" (String c t) with
  | Some (a, b) =>
      if is_iden a && negb (starts_digit b)
      then r <- parse_opt_rhs b ;; Ok (WithSensor (OneSensor a) r)
      else rmap (fun g => NoSensor (OneGroup g)) (parse_group (String c t))
  | None => rmap (fun g => NoSensor (OneGroup g)) (parse_group (String c t))
  end.
Proof. intros H. apply Ascii.eqb_neq in H. destruct c as [[] [] [] [] [] [] [] []]; try reflexivity. congruence. Qed.

Lemma groups_no_close gs : some (some wf_code) gs -> contains ")" (join "," (map text_group gs)) = false.
Proof.
  intros (_ & H). rewrite contains_join by discriminate. apply not_true_is_false. intros E.
  apply existsb_exists in E as (x & Hx & E). apply in_map_iff in Hx as (g & <- & Hg).
  rewrite Forall_forall in H. rewrite group_no in E by (auto; discriminate). discriminate.
Qed.
Lemma groups_no_open gs : some (some wf_code) gs -> contains "(" (join "," (map text_group gs)) = false.
Proof.
  intros (_ & H). rewrite contains_join by discriminate. apply not_true_is_false. intros E.
  apply existsb_exists in E as (x & Hx & E). apply in_map_iff in Hx as (g & <- & Hg).
  rewrite Forall_forall in H. rewrite group_no in E by (auto; discriminate). discriminate.
Qed.

(** ** Right-hand sides *)
Lemma parse_text_rhs r : wf_rhs r -> parse_rhs (text_rhs r) = Ok r.
Proof.
  destruct r as [g|gs]; cbn [wf_rhs text_rhs]; intros H.
  - destruct (group_head _ H) as (c & t & E & Hc). pose proof (parse_text_group _ H) as P.
    rewrite E in *. rewrite parse_rhs_plain by now apply iden_start_not_paren. now rewrite P.
  - cbn. change ")" with (String ")" ""). rewrite split_once_app by now apply groups_no_close.
    now rewrite parse_text_groups.
Qed.
Lemma rmap_ok {A B} (f : A -> B) x b : rmap f x = Ok b -> exists a, x = Ok a /\ b = f a.
Proof. destruct x; cbn; intros H; [|discriminate]. injection H as <-. eauto. Qed.
Lemma rhs_parse_text s r : parse_rhs s = Ok r -> s = text_rhs r /\ wf_rhs r.
Proof.
  intros H. destruct s as [|c s].
  - cbn in H. discriminate.
  - destruct (Ascii.eqb c "(") eqn:E.
    + apply Ascii.eqb_eq in E. subst. cbn in H. destruct (split_once ")" s) as [[inner [|]]|] eqn:E; try discriminate.
      apply split_once_spec in E as (-> & _). apply rmap_ok in H as (gs & H & ->).
      apply groups_parse_text in H as (-> & H). cbn. auto.
    + rewrite parse_rhs_plain in H by trivial.
      apply rmap_ok in H as (g & H & ->). apply group_parse_text in H as (H & Hg). auto.
Qed.
Lemma rhs_ne r : wf_rhs r -> text_rhs r <> "".
Proof.
  destruct r as [g|gs]; cbn [wf_rhs text_rhs]; intros H; [|discriminate].
  destruct (group_head _ H) as (c & t & -> & _). discriminate.
Qed.
Definition text_opt (r : option rhs) : string := match r with None => "" | Some r => text_rhs r end.
Definition wf_opt (r : option rhs) : Prop := match r with None => True | Some r => wf_rhs r end.
Lemma parse_text_opt r : wf_opt r -> parse_opt_rhs (text_opt r) = Ok r.
Proof.
  destruct r as [r|]; cbn; [|reflexivity]. intros H. unfold parse_opt_rhs. pose proof (rhs_ne _ H).
  pose proof (parse_text_rhs _ H) as P. destruct (text_rhs r); [congruence|]. now rewrite P.
Qed.
Lemma opt_parse_text s r : parse_opt_rhs s = Ok r -> s = text_opt r /\ wf_opt r.
Proof.
  unfold parse_opt_rhs. destruct s as [|c s]; intros H; [injection H as <-; cbn; auto|].
  apply rmap_ok in H as (r' & H & ->). now apply rhs_parse_text in H.
Qed.
Lemma opt_head r : wf_opt r -> starts_digit (text_opt r) = false.
Proof.
  destruct r as [[g|gs]|]; cbn [wf_opt wf_rhs text_opt text_rhs]; intros H; [|reflexivity|reflexivity].
  destruct (group_head _ H) as (c & t & -> & Hc). cbn. apply not_true_is_false. intros D. revert Hc D.
  unfold iden_start, dec_digit, letter, in_class. intros Hc D.
  destruct (Ascii.eqb c "_") eqn:E1; [apply Ascii.eqb_eq in E1; subst; discriminate|].
  destruct (Ascii.eqb c "*") eqn:E2; [apply Ascii.eqb_eq in E2; subst; discriminate|]. cbn in Hc. lia.
Qed.

(** ** Items *)
Lemma item_text_eq l r : text_item (WithSensor l r) = text_lhs l ++ text_opt r.
Proof. destruct r; cbn; [reflexivity|now rewrite app_empty_r_s]. Qed.
Lemma wf_item_eq l r : wf_item (WithSensor l r) <-> wf_lhs l /\ wf_opt r.
Proof. destruct r; cbn; tauto. Qed.
Lemma idens_no d l : Forall (fun s => is_iden s = true) l -> iden_rest d = false -> d <> ","%char ->
  contains d (join "," l) = false.
Proof.
  intros H Hd Hc. rewrite contains_join by trivial. apply not_true_is_false. intros E.
  apply existsb_exists in E as (x & Hx & E). rewrite Forall_forall in H.
  rewrite iden_no in E by auto. discriminate.
Qed.
Lemma conflict_iff gs : conflict gs = false <-> forall x g gs', Groups gs <> Groups ([Single x] :: g :: gs').
Proof.
  split.
  - intros H x g gs' E. injection E as ->. discriminate.
  - intros H. unfold conflict. destruct gs as [|[|[] [|]] [|g gs]]; try reflexivity. exfalso. eapply H. reflexivity.
Qed.

(* the first code of a group text, up to the first colon *)
Lemma group_colon_prefix g : some wf_code g ->
  match split_once ":" (text_group g) with
  | None => True
  | Some (a, b) => is_iden a && negb (starts_digit b) = false
  end.
Proof.
  intros Hg. destruct (split_once ":" (text_group g)) as [[a b]|] eqn:E; [|trivial].
  apply not_true_is_false. intros H. apply andb_true_iff in H as (Ha & Hb). apply negb_true_iff in Hb.
  apply split_once_spec in E as (E & _).
  destruct Hg as (Hn & Hg). destruct g as [|c g]; [congruence|]. apply Forall_cons_iff in Hg as (Hc & _).
  assert (Nb : contains "|" a = false) by now apply iden_no.
  assert (Nd : contains "." a = false) by now apply iden_no.
  assert (Nc : contains ":" a = false) by now apply iden_no.
  (* split the text at the first bar *)
  assert (E2 : exists r, text_code c ++ r = a ++ String ":" b /\ (r = "" \/ exists r', r = String "|" r')).
  { unfold text_group in E. cbn [map] in E. destruct (map text_code g) as [|x xs].
    - exists "". cbn in E. rewrite app_empty_r_s. auto.
    - rewrite join_cons in E by discriminate. eauto. }
  destruct E2 as (r & E2 & Hr).
  assert (Ib : forall s d t, is_int s = true -> String d (s ++ t) = String ":" b -> False).
  { intros s d t Hs K. destruct (int_head _ Hs) as (x & y & -> & Hx). injection K as _ <-. cbn in Hb. congruence. }
  assert (Pre : forall id t, is_iden id = true -> id ++ t = a ++ String ":" b ->
                (exists d u, t = String d u) -> (forall d u, t = String d u -> iden_rest d = false) -> t = String ":" b).
  { clear - Ha. intros id t Hi. apply iden_all in Hi, Ha. revert a Ha.
    induction id as [|c id IH]; intros a Ha E (d & u & Et) Hd; cbn in *.
    - destruct a as [|x a]; cbn in E; [trivial|]. rewrite Et in E. injection E as E1 _. subst x. apply andb_true_iff in Ha as (Ha & _).
      rewrite (Hd _ _ Et) in Ha. discriminate.
    - apply andb_true_iff in Hi as (Hc & Hi). destruct a as [|x a]; cbn in E.
      + injection E as -> _. discriminate.
      + injection E as -> E. cbn in Ha. apply andb_true_iff in Ha as (_ & Ha). eapply IH; eauto. }
  destruct c as [id|id i|id n|sep id i n]; cbn [text_code wf_code] in *.
  - destruct Hr as [-> | (r' & ->)].
    + rewrite app_empty_r_s in E2. assert (contains ":" id = false) by now apply iden_no.
      rewrite E2, contains_app in H. cbn in H. rewrite orb_true_r in H. discriminate.
    + apply Pre in E2; trivial; [discriminate|eauto|]. intros d u K. injection K as <- _. reflexivity.
  - destruct Hc as (Hi & Hn'). rewrite <- app_assoc_s in E2. apply Pre in E2; trivial; [discriminate|cbn; eauto|].
    intros d u K. injection K as <- _. reflexivity.
  - destruct Hc as (Hi & Hn'). rewrite <- app_assoc_s in E2. apply Pre in E2; trivial; cbn in *; eauto.
    intros d u K. injection K as <- _. reflexivity.
  - destruct Hc as (Hi & Hn' & _ & Hs). rewrite <- app_assoc_s in E2. cbn [append] in E2.
    rewrite <- app_assoc_s in E2. apply Pre in E2; trivial; cbn in *; eauto.
    intros d u K. injection K as <- _. destruct Hs as [<- | [<- | []]]; reflexivity.
Qed.

Lemma parse_text_item i : wf_item i -> parse_item (text_item i) = Ok i.
Proof.
  destruct i as [l r|r].
  - rewrite item_text_eq, wf_item_eq. intros (Hl & Hr). destruct l as [s|l]; cbn [text_lhs wf_lhs] in *.
    + destruct (iden_head _ Hl) as (c & t & Es & Hc). rewrite <- app_assoc_s.
      rewrite Es at 1. cbn [append]. rewrite parse_item_plain by now apply iden_start_not_paren.
      replace (String c (t ++ String ":" (text_opt r))) with (s ++ String ":" (text_opt r)) by now rewrite Es.
      rewrite split_once_app by now apply iden_no. rewrite Hl, (opt_head _ Hr). cbn. now rewrite parse_text_opt.
    + destruct Hl as (Hn & Hl). cbn [append]. rewrite <- app_assoc_s. cbn [append]. unfold parse_item.
      rewrite split_once_app by now apply idens_no.
      rewrite split_join; trivial; [|eapply Forall_impl; [|exact Hl]; intros; now apply iden_no].
      replace (mapR _ l) with (Ok l); [cbn; now rewrite parse_text_opt|].
      symmetry. clear Hn. induction Hl as [|x l Hx _ IH]; cbn; [reflexivity|]. unfold check at 1. now rewrite Hx, IH.
  - cbn [text_item wf_item]. intros (Hr & Hc). destruct r as [g|gs]; cbn [text_rhs wf_rhs] in *.
    + destruct (group_head _ Hr) as (c & t & E & Hi). pose proof (group_colon_prefix _ Hr) as Hp.
      pose proof (parse_text_group _ Hr) as P. rewrite E in *.
      rewrite parse_item_plain by now apply iden_start_not_paren.
      destruct (split_once ":" (String c t)) as [[a b]|]; [rewrite Hp|]; now rewrite P.
    + cbn [append]. unfold parse_item. change ")" with (String ")" "").
      rewrite split_once_app by now apply groups_no_close. rewrite parse_text_groups by trivial. cbn [bind].
      now rewrite (proj2 (conflict_iff gs) Hc).
Qed.

Lemma idens_parse s ids : mapR (fun i => check (is_iden i) i) (split "," s) = Ok ids ->
  s = join "," ids /\ some (fun i => is_iden i = true) ids.
Proof.
  intros H. apply (text_mapR _ (fun x => x) (fun i => is_iden i = true)) in H; [now rewrite map_id in H|].
  intros x a Hx. apply check_ok in Hx as (Hx & <-). auto.
Qed.

Lemma group_item_parse s i : rmap (fun g => NoSensor (OneGroup g)) (parse_group s) = Ok i -> s = text_item i /\ wf_item i.
Proof.
  intros H. apply rmap_ok in H as (g & H & ->). apply group_parse_text in H as (-> & H). cbn. repeat split; trivial; try apply H.
  discriminate.
Qed.
Lemma item_parse_text s i : parse_item s = Ok i -> s = text_item i /\ wf_item i.
Proof.
  intros H. destruct s as [|c s]; [discriminate H|].
  destruct (Ascii.eqb c "(") eqn:E.
  - apply Ascii.eqb_eq in E. subst. unfold parse_item in H.
    destruct (split_once ")" s) as [[inner [|d r]]|] eqn:E; try discriminate.
    + apply bind_ok in H as (gs & H & H2). destruct (conflict gs) eqn:Ec; [discriminate|]. injection H2 as <-.
      apply split_once_spec in E as (-> & _). apply groups_parse_text in H as (-> & H). cbn. split; [reflexivity|].
      split; [trivial|]. now apply conflict_iff.
    + assert (d = ":"%char) as ->.
      { destruct (Ascii.eqb d ":") eqn:Ed; [now apply Ascii.eqb_eq in Ed|]. exfalso. revert H. apply Ascii.eqb_neq in Ed.
        destruct d as [[] [] [] [] [] [] [] []]; try discriminate. congruence. }
      apply bind_ok in H as (ids & H1 & H). apply bind_ok in H as (o & H2 & H). injection H as <-.
      apply split_once_spec in E as (-> & _). apply idens_parse in H1 as (-> & H1). apply opt_parse_text in H2 as (-> & H2).
      rewrite item_text_eq, wf_item_eq. cbn. rewrite <- app_assoc_s. cbn. repeat split; trivial; apply H1.
  - rewrite parse_item_plain in H by trivial.
    destruct (split_once ":" (String c s)) as [[a b]|] eqn:E2; [|now apply group_item_parse].
    destruct (is_iden a && negb (starts_digit b)) eqn:E3; [|now apply group_item_parse].
    apply bind_ok in H as (o & H2 & H). injection H as <-. apply split_once_spec in E2 as (-> & _).
    apply opt_parse_text in H2 as (-> & H2). apply andb_true_iff in E3 as (Ha & _).
    rewrite item_text_eq, wf_item_eq. cbn. now rewrite <- app_assoc_s.
Qed.

Lemma group_scan g b : some wf_code g -> scan b (text_group g) = Some b.
Proof. intros H. apply scan_plain; [| |right]; apply group_no; trivial; discriminate. Qed.
Lemma opt_scan r : wf_opt r -> scan false (text_opt r) = Some false.
Proof.
  destruct r as [[g|gs]|]; cbn [wf_opt wf_rhs text_opt text_rhs]; intros H; [now apply group_scan| |reflexivity].
  cbn [append scan]. cbn. rewrite scan_app, scan_plain; auto using groups_no_open, groups_no_close.
Qed.
Lemma item_scan i : wf_item i -> scan false (text_item i) = Some false.
Proof.
  destruct i as [l r|r].
  - rewrite item_text_eq, wf_item_eq. intros (Hl & Hr). rewrite scan_app.
    replace (scan false (text_lhs l)) with (Some false); [now apply opt_scan|]. symmetry.
    destruct l as [s|l]; cbn [text_lhs wf_lhs] in *.
    + rewrite scan_app, scan_plain; try now apply iden_no. { reflexivity. } right. now apply iden_no.
    + destruct Hl as (_ & Hl). cbn. rewrite scan_app, scan_plain; auto using idens_no; apply idens_no; trivial; discriminate.
  - cbn. intros (H & _). apply (opt_scan (Some r)). trivial.
Qed.

Lemma parse_text_ok t : wf t -> parse (text t) = Ok t.
Proof.
  intros (Hn & H). unfold parse, text. rewrite split_top_join.
  - apply mapR_text. eapply Forall_impl; [|exact H]. apply parse_text_item.
  - now destruct t.
  - apply Forall_map. eapply Forall_impl; [|exact H]. apply item_scan.
Qed.
Lemma parse_ok_text s t : parse s = Ok t -> s = text t /\ wf t.
Proof.
  unfold parse. intros H. apply mapR_Forall2 in H. rewrite <- (join_split_top s false).
  pose proof (split_top_ne false s) as Hn. revert H Hn. generalize (split_top false s). intros xs H Hn.
  assert (E : xs = map text_item t /\ Forall wf_item t).
  { clear Hn. induction H as [|x a xs l Hx _ IH]; [auto|]. destruct IH as (-> & HP).
    apply item_parse_text in Hx as (-> & Ha). auto. }
  destruct E as (-> & HP). split; [reflexivity|]. split; [|trivial]. now destruct t.
Qed.
Lemma parse_iff s t : parse s = Ok t <-> s = text t /\ wf t.
Proof. split; [apply parse_ok_text|]. intros (-> & H). now apply parse_text_ok. Qed.
