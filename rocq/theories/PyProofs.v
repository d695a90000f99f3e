(* Lemmas about the Python primitives of Py.v. *)
From Verif Require Import Py.
From Coq Require Import ZifyBool ZifyNat ZifyN.
Ltac Zify.zify_post_hook ::= Z.div_mod_to_equations.
Local Open Scope string_scope.

(** ** result *)

Lemma bind_ok {A B} (x : result A) (f : A -> result B) b :
  bind x f = Ok b -> exists a, x = Ok a /\ f a = Ok b.
Proof. destruct x; cbn; intros H; [eauto|discriminate]. Qed.

Lemma mapR_length {A B} (f : A -> result B) l l' :
  mapR f l = Ok l' -> List.length l' = List.length l.
Proof.
  revert l'; induction l as [|a l IH]; cbn; intros l' H.
  - injection H as <-; reflexivity.
  - apply bind_ok in H as (b & Hb & H). apply bind_ok in H as (bs & Hbs & H).
    injection H as <-. cbn. rewrite (IH _ Hbs). reflexivity.
Qed.

Lemma mapR_Forall2 {A B} (f : A -> result B) l l' :
  mapR f l = Ok l' <-> Forall2 (fun a b => f a = Ok b) l l'.
Proof.
  split.
  - revert l'; induction l as [|a l IH]; cbn; intros l' H.
    + injection H as <-; constructor.
    + apply bind_ok in H as (b & Hb & H). apply bind_ok in H as (bs & Hbs & H).
      injection H as <-. constructor; auto.
  - induction 1 as [|a b l l' Hab _ IH]; cbn; [reflexivity|].
    rewrite Hab, IH. reflexivity.
Qed.

Lemma mapR_app {A B} (f : A -> result B) l1 l2 :
  mapR f (l1 ++ l2) = (a <- mapR f l1 ;; b <- mapR f l2 ;; Ok (a ++ b)%list).
Proof.
  induction l1 as [|x l1 IH]; cbn.
  - destruct (mapR f l2); reflexivity.
  - destruct (f x); cbn; [|reflexivity]. rewrite IH.
    destruct (mapR f l1); cbn; [|reflexivity].
    destruct (mapR f l2); reflexivity.
Qed.

Lemma mapR_ext {A B} (f g : A -> result B) l :
  (forall a, In a l -> f a = g a) -> mapR f l = mapR g l.
Proof.
  induction l as [|a l IH]; cbn; intros H; [reflexivity|].
  rewrite (H a) by now left. rewrite IH by (intros; apply H; now right). reflexivity.
Qed.

Lemma mapR_map {A B C} (f : B -> result C) (g : A -> B) l :
  mapR f (map g l) = mapR (fun a => f (g a)) l.
Proof. induction l as [|a l IH]; cbn; [reflexivity|]. rewrite IH. reflexivity. Qed.

Lemma mapR_Ok_map {A B} (g : A -> B) l : mapR (fun a => Ok (g a)) l = Ok (map g l).
Proof. induction l as [|a l IH]; cbn; [reflexivity|]. rewrite IH. reflexivity. Qed.

(** ** membership, eqb *)

Lemma str_mem_In x l : str_mem x l = true <-> In x l.
Proof.
  induction l as [|y l IH]; cbn; [split; [discriminate|tauto]|].
  rewrite orb_true_iff, IH, String.eqb_eq. intuition congruence.
Qed.

Lemma str_mem_notIn x l : str_mem x l = false <-> ~ In x l.
Proof.
  rewrite <- str_mem_In. destruct (str_mem x l); split; try congruence; tauto.
Qed.

(** ** contains *)

Lemma contains_app c a b : contains c (a ++ b) = contains c a || contains c b.
Proof. induction a as [|x a IH]; cbn; [reflexivity|]. rewrite IH. now rewrite orb_assoc. Qed.

Lemma app_assoc_s (a b c : string) : a ++ (b ++ c) = (a ++ b) ++ c.
Proof. induction a as [|x a IH]; cbn; [reflexivity|]. now rewrite IH. Qed.

Lemma app_empty_r_s (a : string) : a ++ "" = a.
Proof. induction a as [|x a IH]; cbn; [reflexivity|]. now rewrite IH. Qed.

Lemma contains_split_once c s :
  contains c s = match split_once c s with Some _ => true | None => false end.
Proof.
  induction s as [|a s IH]; cbn; [reflexivity|].
  destruct (Ascii.eqb a c); cbn; [reflexivity|].
  rewrite IH. destruct (split_once c s) as [[? ?]|]; reflexivity.
Qed.

Lemma split_once_spec c s x y :
  split_once c s = Some (x, y) -> s = x ++ String c y /\ contains c x = false.
Proof.
  revert x y; induction s as [|a s IH]; cbn; intros x y H; [discriminate|].
  destruct (Ascii.eqb a c) eqn:E.
  - injection H as <- <-. apply Ascii.eqb_eq in E. subst a. split; reflexivity.
  - destruct (split_once c s) as [[x' y']|] eqn:E2; [|discriminate].
    injection H as <- <-. destruct (IH _ _ eq_refl) as [-> Hx].
    split; [reflexivity|]. cbn. now rewrite E.
Qed.

Lemma split_once_app c x y :
  contains c x = false -> split_once c (x ++ String c y) = Some (x, y).
Proof.
  induction x as [|a x IH]; cbn; intros H.
  - now rewrite Ascii.eqb_refl.
  - apply orb_false_iff in H as [H1 H2]. rewrite H1. now rewrite (IH H2).
Qed.

(** ** split and join *)

Lemma split_nonempty c s : split c s <> [].
Proof.
  destruct s as [|a s]; cbn; [discriminate|].
  destruct (Ascii.eqb a c); [discriminate|]. destruct (split c s); discriminate.
Qed.

Lemma split_no_sep c s : contains c s = false -> split c s = [s].
Proof.
  induction s as [|a s IH]; cbn; intros H; [reflexivity|].
  apply orb_false_iff in H as [-> H]. now rewrite (IH H).
Qed.

Lemma split_app c x y :
  contains c x = false -> split c (x ++ String c y) = x :: split c y.
Proof.
  induction x as [|a x IH]; cbn; intros H.
  - now rewrite Ascii.eqb_refl.
  - apply orb_false_iff in H as [-> H]. now rewrite (IH H).
Qed.

Lemma split_app_gen c x y :
  split c (x ++ String c y) = (split c x ++ split c y)%list.
Proof.
  induction x as [|a x IH]; cbn.
  - now rewrite Ascii.eqb_refl.
  - destruct (Ascii.eqb a c); [now rewrite IH|].
    rewrite IH. destruct (split c x) as [|h t] eqn:E; [now destruct (split_nonempty c x)|].
    reflexivity.
Qed.

Lemma split_pieces c s : Forall (fun p => contains c p = false) (split c s).
Proof.
  induction s as [|a s IH]; cbn; [repeat constructor|].
  destruct (Ascii.eqb a c) eqn:E.
  - constructor; [reflexivity|exact IH].
  - destruct (split c s) as [|h t]; [constructor; [cbn; now rewrite E|constructor]|].
    inversion IH; subst. constructor; [cbn; rewrite E; assumption|assumption].
Qed.

Lemma split_pieces_sub c d s : contains d s = false ->
  Forall (fun p => contains d p = false) (split c s).
Proof.
  induction s as [|a s IH]; cbn; intros H; [repeat constructor|].
  apply orb_false_iff in H as [Ha Hs]. specialize (IH Hs).
  destruct (Ascii.eqb a c) eqn:E.
  - constructor; [reflexivity|exact IH].
  - destruct (split c s) as [|h t]; [constructor; [cbn; now rewrite Ha|constructor]|].
    inversion IH; subst. constructor; [cbn; rewrite Ha; assumption|assumption].
Qed.

Lemma join_cons c x l : l <> [] -> join c (x :: l) = x ++ String c (join c l).
Proof. destruct l; [congruence|reflexivity]. Qed.

Lemma split_join c l :
  l <> [] -> Forall (fun p => contains c p = false) l -> split c (join c l) = l.
Proof.
  induction l as [|x l IH]; intros Hn H; [congruence|].
  inversion H as [|? ? Hx Hl]; subst. destruct l as [|y l].
  - cbn. now apply split_no_sep.
  - rewrite join_cons by discriminate. rewrite split_app by assumption.
    rewrite IH; [reflexivity|discriminate|assumption].
Qed.

Lemma join_split c s : join c (split c s) = s.
Proof.
  induction s as [|a s IH]; cbn [split]; [reflexivity|].
  destruct (Ascii.eqb a c) eqn:E.
  - apply Ascii.eqb_eq in E; subst. rewrite join_cons by apply split_nonempty.
    cbn. now rewrite IH.
  - destruct (split c s) as [|h t] eqn:E2; [now destruct (split_nonempty c s)|].
    rewrite <- IH. destruct t; reflexivity.
Qed.

Lemma split_length_contains c s :
  contains c s = false <-> List.length (split c s) = 1%nat.
Proof.
  split.
  - intros H. now rewrite (split_no_sep _ _ H).
  - intros H. destruct (contains c s) eqn:E; [|reflexivity].
    rewrite contains_split_once in E. destruct (split_once c s) as [[x y]|] eqn:E2; [|discriminate].
    apply split_once_spec in E2 as [-> Hx]. rewrite split_app in H by assumption.
    cbn in H. pose proof (split_nonempty c y). destruct (split c y); [congruence|discriminate].
Qed.

Lemma contains_join c d l : c <> d ->
  contains c (join d l) = existsb (contains c) l.
Proof.
  intros Hcd. induction l as [|x l IH]; [reflexivity|].
  destruct l as [|y l].
  - cbn. now rewrite orb_false_r.
  - rewrite join_cons by discriminate. rewrite contains_app. cbn [contains existsb] in *.
    rewrite IH. destruct (Ascii.eqb d c) eqn:E; [apply Ascii.eqb_eq in E; congruence|].
    reflexivity.
Qed.

Lemma join_empty c l : join c l = "" -> l = [] \/ l = [""].
Proof.
  destruct l as [|x [|y l]]; cbn; intros H; auto.
  - right. now rewrite H.
  - destruct x; discriminate.
Qed.

(** ** integer printing *)

Lemma digit_val_digit n : (n < 10)%N -> digit_val (digit n) = Some n.
Proof.
  intros H. unfold digit_val, digit. rewrite N_ascii_embedding by lia.
  replace ((48 <=? 48 + n) && (48 + n <=? 57))%N with true by lia.
  f_equal. lia.
Qed.

Lemma digit_chars n : (n < 10)%N ->
  In (digit n) ["0";"1";"2";"3";"4";"5";"6";"7";"8";"9"]%char.
Proof.
  intros H. unfold digit.
  assert (Hn : n = 0%N \/ n = 1%N \/ n = 2%N \/ n = 3%N \/ n = 4%N \/ n = 5%N \/ n = 6%N
               \/ n = 7%N \/ n = 8%N \/ n = 9%N) by lia.
  repeat destruct Hn as [->|Hn]; cbn; auto 12. subst n. cbn. auto 12.
Qed.

Definition is_digit (c : ascii) : bool :=
  match digit_val c with Some _ => true | None => false end.
Fixpoint all_digits (s : string) : bool :=
  match s with EmptyString => true | String c s' => is_digit c && all_digits s' end.

Lemma is_digit_digit n : is_digit (digit (n mod 10)) = true.
Proof. unfold is_digit. rewrite digit_val_digit; [reflexivity|]. apply N.mod_lt; discriminate. Qed.

Lemma nstr_all_digits f : forall n acc, all_digits acc = true -> all_digits (nstr f n acc) = true.
Proof.
  induction f as [|f IH]; cbn [nstr]; intros n acc H; [exact H|].
  assert (H' : all_digits (String (digit (n mod 10)) acc) = true)
    by (cbn; rewrite is_digit_digit; exact H).
  destruct (n / 10 =? 0)%N; [exact H'|]. now apply IH.
Qed.

Lemma nstr_cons f : forall n acc, exists c t, nstr (S f) n acc = String c t.
Proof.
  induction f as [|f IH]; intros n acc; cbn [nstr].
  - destruct (n / 10 =? 0)%N; eauto.
  - destruct (n / 10 =? 0)%N; [eauto|]. apply IH.
Qed.

Lemma parse_nstr f : forall n acc, (n < 10 ^ N.of_nat (S f))%N ->
  parse_nat (nstr (S f) n acc) = parse_digits n acc.
Proof.
  induction f as [|f IH]; intros n acc H.
  - cbn [nstr]. assert (Hn : (n < 10)%N) by (change (10 ^ N.of_nat 1)%N with 10%N in H; lia).
    replace (n mod 10)%N with n by (symmetry; apply N.mod_small; lia).
    replace (n / 10 =? 0)%N with true by (symmetry; apply N.eqb_eq, N.div_small; lia).
    cbn [parse_nat]. now rewrite digit_val_digit.
  - cbn [nstr]. fold (nstr (S f)). destruct (n / 10 =? 0)%N eqn:E.
    + apply N.eqb_eq in E. assert (Hn : (n < 10)%N) by lia.
      rewrite N.mod_small by lia. cbn [parse_nat]. now rewrite digit_val_digit.
    + change (if (n / 10 / 10 =? 0)%N then _ else _) with
        (nstr (S f) (n / 10) (String (digit (n mod 10)) acc)).
      rewrite IH.
      * cbn [parse_digits]. rewrite digit_val_digit by (apply N.mod_lt; discriminate).
        f_equal. lia.
      * rewrite Nat2N.inj_succ, N.pow_succ_r' in H. lia.
Qed.

Lemma size_bound n : (n < 10 ^ N.of_nat (S (N.size_nat n)))%N.
Proof.
  assert (H : (n < 2 ^ N.of_nat (N.size_nat n))%N).
  { destruct n as [|p]; [reflexivity|]. cbn [N.size_nat].
    assert (Hp : forall p, (N.pos p < 2 ^ N.of_nat (Pos.size_nat p))%N).
    { clear. induction p as [p IH|p IH|]; cbn [Pos.size_nat];
        [| |reflexivity]; rewrite Nat2N.inj_succ, N.pow_succ_r'; lia. }
    apply Hp. }
  rewrite Nat2N.inj_succ, N.pow_succ_r'.
  assert (H2 : (2 ^ N.of_nat (N.size_nat n) <= 10 ^ N.of_nat (N.size_nat n))%N)
    by (apply N.pow_le_mono_l; lia).
  lia.
Qed.

Lemma parse_N_str n : parse_nat (N_str n) = Some n.
Proof. unfold N_str. rewrite parse_nstr by apply size_bound. reflexivity. Qed.

Lemma N_str_digits n : all_digits (N_str n) = true.
Proof. now apply nstr_all_digits. Qed.

Lemma N_str_cons n : exists c t, N_str n = String c t.
Proof. apply nstr_cons. Qed.

Lemma digit_not_space c : is_digit c = true -> is_space c = false.
Proof.
  unfold is_digit, digit_val, is_space. intros H.
  destruct ((48 <=? N_of_ascii c) && (N_of_ascii c <=? 57))%N eqn:E; [lia|discriminate].
Qed.

Lemma rstrip_digits s : all_digits s = true -> rstrip s = s.
Proof.
  induction s as [|c s IH]; cbn; [reflexivity|]. intros H.
  apply andb_true_iff in H as [Hc Hs]. rewrite (IH Hs).
  destruct s; [now rewrite (digit_not_space _ Hc)|reflexivity].
Qed.

Lemma digit_neq c d : is_digit c = true -> is_digit d = false -> Ascii.eqb c d = false.
Proof.
  intros Hc Hd. destruct (Ascii.eqb c d) eqn:E; [|reflexivity].
  apply Ascii.eqb_eq in E; congruence.
Qed.

Lemma contains_digits d s : all_digits s = true -> is_digit d = false -> contains d s = false.
Proof.
  induction s as [|c s IH]; cbn; [reflexivity|]. intros H Hd.
  apply andb_true_iff in H as [Hc Hs]. rewrite (digit_neq _ _ Hc Hd). cbn. auto.
Qed.

Lemma py_int_N n : py_int (N_str n) = Ok (Z.of_N n).
Proof.
  unfold py_int. destruct (N_str_cons n) as (c & t & E). pose proof (N_str_digits n) as D.
  assert (Hs : rstrip (lstrip (N_str n)) = N_str n).
  { rewrite E in *. cbn in D. apply andb_true_iff in D as [Dc Dt].
    cbn [lstrip]. rewrite (digit_not_space _ Dc). apply rstrip_digits. cbn. now rewrite Dc. }
  rewrite Hs. rewrite E in D |- *. cbn in D. apply andb_true_iff in D as [Dc Dt].
  rewrite !(digit_neq c) by (assumption || reflexivity).
  rewrite <- E, parse_N_str. reflexivity.
Qed.

(* int('{}'.format(z)) == z *)
Lemma py_int_Z_str z : py_int (Z_str z) = Ok z.
Proof.
  destruct z as [|p|p]; cbn [Z_str].
  - reflexivity.
  - rewrite py_int_N. reflexivity.
  - unfold py_int. destruct (N_str_cons (N.pos p)) as (c & t & E).
    pose proof (N_str_digits (N.pos p)) as D.
    cbn [lstrip]. change (is_space "-") with false. cbn match.
    cbn [rstrip]. rewrite (rstrip_digits _ D). rewrite E at 1. rewrite <- E.
    cbn [Ascii.eqb]. change (Ascii.eqb "-" "-") with true. cbn match.
    rewrite parse_N_str. reflexivity.
Qed.

Lemma Z_str_inj a b : Z_str a = Z_str b -> a = b.
Proof. intros H. apply (f_equal py_int) in H. rewrite !py_int_Z_str in H. congruence. Qed.

Lemma Z_str_no c z : is_digit c = false -> c <> "-"%char -> contains c (Z_str z) = false.
Proof.
  intros Hc Hm. destruct z as [|p|p]; cbn [Z_str].
  - apply contains_digits; [apply N_str_digits|exact Hc].
  - apply contains_digits; [apply N_str_digits|exact Hc].
  - cbn [contains]. rewrite contains_digits by (apply N_str_digits || exact Hc).
    destruct (Ascii.eqb "-" c) eqn:E; [apply Ascii.eqb_eq in E; congruence|reflexivity].
Qed.

Lemma Z_str_nonempty z : Z_str z <> "".
Proof.
  destruct z as [|p|p]; cbn [Z_str]; try discriminate.
  destruct (N_str_cons (Z.to_N (Z.pos p))) as (c & t & ->). discriminate.
Qed.

(** ** range *)

Lemma zseq_length n : List.length (zseq n) = n.
Proof. unfold zseq. now rewrite map_length, seq_length. Qed.

Lemma zseq_In n z : In z (zseq n) <-> (0 <= z < Z.of_nat n)%Z.
Proof.
  unfold zseq. rewrite in_map_iff. split.
  - intros (k & <- & Hk). apply in_seq in Hk. lia.
  - intros H. exists (Z.to_nat z). split; [lia|]. apply in_seq. lia.
Qed.

Lemma range_len_nonneg a b s : s <> 0%Z -> (0 <= range_len a b s)%Z.
Proof.
  intros Hs. unfold range_len.
  destruct (0 <? s)%Z eqn:E1; [destruct (a <? b)%Z eqn:E2|destruct (b <? a)%Z eqn:E2]; try lia.
  - assert (0 <= (b - a - 1) / s)%Z by (apply Z.div_pos; lia). lia.
  - assert (0 <= (a - b - 1) / - s)%Z by (apply Z.div_pos; lia). lia.
Qed.

Lemma py_range_length a b s l :
  py_range a b s = Ok l -> Z.of_nat (List.length l) = range_len a b s.
Proof.
  unfold py_range. destruct (s =? 0)%Z eqn:E; [discriminate|]. intros H; injection H as <-.
  rewrite map_length, zseq_length. pose proof (range_len_nonneg a b s). lia.
Qed.

Lemma zseq_map_add (m n : nat) (f : Z -> Z) :
  zseq (m + n) = (zseq m ++ map (fun k => Z.of_nat m + k) (zseq n))%list%Z.
Proof.
  unfold zseq. rewrite seq_app, map_app. f_equal. rewrite map_map.
  cbn [Nat.add]. replace (seq m n) with (map (fun k => (m + k)%nat) (seq 0 n)).
  - rewrite map_map. apply map_ext. intros; lia.
  - clear. revert m; induction n as [|n IH]; intros m; cbn; [reflexivity|].
    f_equal; [lia|]. rewrite <- seq_shift, map_map. rewrite <- (IH (S m)).
    apply map_ext. intros; lia.
Qed.

Lemma py_range_1 a b :
  py_range a b 1 = Ok (map (fun k => a + k)%Z (zseq (Z.to_nat (b - a)))).
Proof.
  unfold py_range, range_len. cbn [Z.eqb Z.ltb Z.compare].
  f_equal. replace (Z.to_nat _) with (Z.to_nat (b - a)).
  - apply map_ext. intros; lia.
  - destruct (a <? b)%Z eqn:E; [|lia]. rewrite Z.div_1_r. f_equal. lia.
Qed.

(** ** dict *)

Lemma NoDup_app_single {A} (l : list A) x : NoDup l -> ~ In x l -> NoDup (l ++ [x]).
Proof.
  intros H Hx. induction H as [|y l Hy Hl IH]; cbn; [repeat constructor; tauto|].
  cbn in Hx. constructor; [|apply IH; tauto].
  rewrite in_app_iff. cbn. intuition congruence.
Qed.

Section DictLemmas.
  Context {V : Type}.
  Implicit Types d : list (string * V).

  Lemma dict_get_set_same k v d : dict_get k (dict_set k v d) = Some v.
  Proof.
    induction d as [|[k' v'] d IH]; cbn.
    - now rewrite String.eqb_refl.
    - destruct (String.eqb k k') eqn:E; cbn; rewrite E; [reflexivity|exact IH].
  Qed.

  Lemma dict_get_set_other k k2 v d : k2 <> k -> dict_get k2 (dict_set k v d) = dict_get k2 d.
  Proof.
    intros Hn. induction d as [|[k' v'] d IH]; cbn.
    - destruct (String.eqb k2 k) eqn:E; [apply String.eqb_eq in E; congruence|reflexivity].
    - destruct (String.eqb k k') eqn:E; cbn.
      + apply String.eqb_eq in E; subst k'.
        destruct (String.eqb k2 k) eqn:E2; [apply String.eqb_eq in E2; congruence|reflexivity].
      + destruct (String.eqb k2 k'); [reflexivity|exact IH].
  Qed.

  Lemma dict_get_In k v d : dict_get k d = Some v -> In (k, v) d.
  Proof.
    induction d as [|[k' v'] d IH]; cbn; [discriminate|].
    destruct (String.eqb k k') eqn:E; intros H.
    - apply String.eqb_eq in E. left. congruence.
    - right. auto.
  Qed.

  Lemma dict_get_None k d : dict_get k d = None <-> ~ In k (map fst d).
  Proof.
    induction d as [|[k' v'] d IH]; cbn; [tauto|].
    destruct (String.eqb k k') eqn:E.
    - apply String.eqb_eq in E. split; [discriminate|]. intros H. exfalso. apply H. now left.
    - apply String.eqb_neq in E. rewrite IH. intuition congruence.
  Qed.

  Lemma dict_In_get k v d : NoDup (map fst d) -> In (k, v) d -> dict_get k d = Some v.
  Proof.
    induction d as [|[k' v'] d IH]; cbn; [tauto|]. intros Hnd [H|H].
    - injection H as -> ->. now rewrite String.eqb_refl.
    - inversion Hnd as [|? ? Hk Hd]; subst. destruct (String.eqb k k') eqn:E.
      + apply String.eqb_eq in E; subst. exfalso. apply Hk. apply in_map_iff. now exists (k', v).
      + auto.
  Qed.

  Lemma dict_set_new k v d : ~ In k (map fst d) -> dict_set k v d = (d ++ [(k, v)])%list.
  Proof.
    induction d as [|[k' v'] d IH]; cbn; [reflexivity|]. intros H.
    destruct (String.eqb k k') eqn:E; [apply String.eqb_eq in E; subst; tauto|].
    rewrite IH by tauto. reflexivity.
  Qed.

  Lemma dict_set_keys k v d : In k (map fst d) -> map fst (dict_set k v d) = map fst d.
  Proof.
    induction d as [|[k' v'] d IH]; cbn; [tauto|]. intros H.
    destruct (String.eqb k k') eqn:E; cbn; [reflexivity|].
    apply String.eqb_neq in E. rewrite IH; [reflexivity|]. destruct H; congruence.
  Qed.

  Lemma dict_set_NoDup k v d : NoDup (map fst d) -> NoDup (map fst (dict_set k v d)).
  Proof.
    intros H. destruct (in_dec string_dec k (map fst d)) as [Hi|Hi].
    - now rewrite dict_set_keys.
    - rewrite dict_set_new by assumption. rewrite map_app. cbn.
      apply NoDup_app_single; assumption.
  Qed.

  Lemma dict_set_In k v k2 d : In k2 (map fst (dict_set k v d)) <-> k2 = k \/ In k2 (map fst d).
  Proof.
    induction d as [|[k' v'] d IH]; cbn; [intuition congruence|].
    destruct (String.eqb k k') eqn:E; cbn.
    - apply String.eqb_eq in E; subst. intuition congruence.
    - rewrite IH. intuition congruence.
  Qed.

  Lemma dict_of_gen l : forall d,
    NoDup (map fst d) ->
    NoDup (map fst (fold_left (fun d kv => dict_set (fst kv) (snd kv) d) l d)).
  Proof.
    induction l as [|[k v] l IH]; cbn; intros d H; [exact H|]. apply IH. now apply dict_set_NoDup.
  Qed.

  Lemma dict_of_NoDup (l : list (string * V)) : NoDup (map fst (dict_of l)).
  Proof. apply dict_of_gen. constructor. Qed.

  Lemma dict_of_id_gen l : forall d,
    NoDup (map fst (d ++ l)) ->
    fold_left (fun d kv => dict_set (fst kv) (snd kv) d) l d = (d ++ l)%list.
  Proof.
    induction l as [|[k v] l IH]; cbn; intros d H; [now rewrite app_nil_r|].
    rewrite dict_set_new.
    - rewrite IH; rewrite <- app_assoc; [reflexivity|exact H].
    - rewrite map_app in H. cbn in H. apply NoDup_remove_2 in H. intros Hi. apply H.
      apply in_or_app. now left.
  Qed.

  Lemma dict_of_id (l : list (string * V)) : NoDup (map fst l) -> dict_of l = l.
  Proof. intros H. unfold dict_of. now rewrite dict_of_id_gen. Qed.

  Lemma dict_of_keys_gen l : forall d k,
    In k (map fst (fold_left (fun d kv => dict_set (fst kv) (snd kv) d) l d)) <->
    In k (map fst d) \/ In k (map fst l).
  Proof.
    induction l as [|[k v] l IH]; cbn; intros d k2; [tauto|].
    rewrite IH, dict_set_In. intuition congruence.
  Qed.

  Lemma dict_of_keys (l : list (string * V)) k : In k (map fst (dict_of l)) <-> In k (map fst l).
  Proof. unfold dict_of. rewrite dict_of_keys_gen. cbn. tauto. Qed.

  Lemma dict_set_In_pair k v x d : In x (dict_set k v d) -> x = (k, v) \/ In x d.
  Proof.
    induction d as [|[k' v'] d IH]; cbn; [intuition congruence|].
    destruct (String.eqb k k') eqn:E; cbn.
    - apply String.eqb_eq in E; subst. intuition congruence.
    - intuition congruence.
  Qed.

  Lemma dict_of_In_gen l : forall d x,
    In x (fold_left (fun d kv => dict_set (fst kv) (snd kv) d) l d) -> In x d \/ In x l.
  Proof.
    induction l as [|[k v] l IH]; cbn; intros d x H; [tauto|].
    apply IH in H as [H|H]; [|tauto]. apply dict_set_In_pair in H. cbn in H. intuition congruence.
  Qed.

  Lemma dict_of_In (l : list (string * V)) x : In x (dict_of l) -> In x l.
  Proof. intros H. apply dict_of_In_gen in H. cbn in H. tauto. Qed.
End DictLemmas.

(** ** ordered sets *)

Lemma oset_of_In x l : In x (oset_of l) <-> In x l.
Proof.
  induction l as [|y l IH]; cbn; [tauto|]. rewrite filter_In, IH.
  destruct (String.eqb y x) eqn:E; cbn.
  - apply String.eqb_eq in E. intuition congruence.
  - apply String.eqb_neq in E. intuition congruence.
Qed.

Lemma oset_of_NoDup l : NoDup (oset_of l).
Proof.
  induction l as [|y l IH]; cbn; constructor.
  - rewrite filter_In, String.eqb_refl. cbn. intuition congruence.
  - now apply NoDup_filter.
Qed.

Lemma filter_id {A} (p : A -> bool) l : (forall x, In x l -> p x = true) -> filter p l = l.
Proof.
  induction l as [|y l IH]; cbn; intros H; [reflexivity|].
  rewrite (H y) by now left. rewrite IH; [reflexivity|]. intros; apply H; now right.
Qed.

Lemma oset_of_id l : NoDup l -> oset_of l = l.
Proof.
  induction 1 as [|y l Hy _ IH]; cbn; [reflexivity|]. rewrite IH. f_equal.
  apply filter_id. intros x Hx. destruct (String.eqb y x) eqn:E; [|reflexivity].
  apply String.eqb_eq in E. congruence.
Qed.

Lemma strs_dec (a b : list string) : {a = b} + {a <> b}.
Proof. apply list_eq_dec, string_dec. Qed.

Lemma Forall2_imp {A B} (P Q : A -> B -> Prop) l l' :
  (forall a b, P a b -> Q a b) -> Forall2 P l l' -> Forall2 Q l l'.
Proof. intros H. induction 1; constructor; auto. Qed.
