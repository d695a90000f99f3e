(* How long sanitized paths can get (C20). *)
From Verif Require Import Py PyProofs ChanModel ChanSpec ChanProofs ChanStreamProofs.
Local Open Scope Z_scope.

(* the whole number n is written with k digits *)
Definition digits (n k : Z) : Prop := 1 <= k /\ 0 <= n < 10 ^ k /\ (k = 1 \/ 10 ^ (k - 1) <= n).

Lemma nstr_length f n acc k : (n < 10 ^ N.of_nat (S f))%N -> digits (Z.of_N n) k ->
  Z.of_nat (String.length (nstr (S f) n acc)) = k + Z.of_nat (String.length acc).
Proof.
  revert n acc k. induction f as [|f IH]; intros n acc k Hf (K & (_ & U) & L).
  - change (10 ^ N.of_nat 1)%N with 10%N in Hf. cbn [nstr]. rewrite (N.div_small n 10 Hf). cbn [N.eqb String.length].
    destruct L as [-> |L]; [lia|]. destruct (Z.eq_dec k 1) as [-> |K1]; [lia|]. exfalso.
    assert (10 ^ 1 <= 10 ^ (k - 1)) by (apply Z.pow_le_mono_r; lia). change (10 ^ 1) with 10 in *. lia.
  - remember (S f) as g. cbn [nstr]. subst g. destruct (N.eqb_spec (n / 10) 0) as [E|E].
    + assert (n < 10)%N by (apply N.div_small_iff; lia). cbn [String.length].
      destruct L as [-> |L]; [lia|]. destruct (Z.eq_dec k 1) as [-> |K1]; [lia|]. exfalso.
      assert (10 ^ 1 <= 10 ^ (k - 1)) by (apply Z.pow_le_mono_r; lia). change (10 ^ 1) with 10 in *. lia.
    + assert (Hn : (10 <= n)%N) by (destruct (N.lt_ge_cases n 10) as [X|X]; [apply N.div_small in X; contradiction|exact X]).
      assert (K1 : k <> 1) by (intros ->; change (10 ^ 1) with 10 in U; lia). destruct L as [L|L]; [contradiction|].
      rewrite (IH (n / 10)%N _ (k - 1)).
      * cbn [String.length]. lia.
      * apply N.div_lt_upper_bound; [lia|]. rewrite <- N.pow_succ_r by lia. rewrite <- Nat2N.inj_succ. exact Hf.
      * split; [lia|]. rewrite N2Z.inj_div. change (Z.of_N 10) with 10. replace (10 ^ k) with (10 * 10 ^ (k - 1)) in U by (rewrite <- Z.pow_succ_r by lia; f_equal; lia).
        split; [split; [apply Z.div_pos; lia|apply Z.div_lt_upper_bound; lia]|].
        destruct (Z.eq_dec (k - 1) 1); [now left|right]. apply Z.div_le_lower_bound; [lia|].
        rewrite <- Z.pow_succ_r by lia. replace (Z.succ (k - 1 - 1)) with (k - 1) by lia. exact L.
Qed.
Lemma Z_str_length n k : digits n k -> Z.of_nat (String.length (Z_str n)) = k.
Proof.
  intros D. assert (E : Z_str n = N_str (Z.to_N n)) by (destruct n; [reflexivity|reflexivity|destruct D as (_ & ? & _); lia]).
  rewrite E. unfold N_str. rewrite (nstr_length _ _ _ k); [cbn; lia|apply size_bound|]. rewrite Z2N.id; [exact D|apply D].
Qed.
Lemma substring_le n s : (String.length (substring 0 n s) <= n)%nat.
Proof. revert s. induction n as [|n IH]; intros [|a s]; cbn; try lia. specialize (IH s). lia. Qed.
Lemma substring_eq n s : (n <= String.length s)%nat -> String.length (substring 0 n s) = n.
Proof. revert s. induction n as [|n IH]; intros [|a s] H; cbn in *; try lia. rewrite IH; lia. Qed.
Lemma app_len a b : String.length (a ++ b)%string = (String.length a + String.length b)%nat.
Proof. induction a; cbn; congruence. Qed.

(* Names that fit are kept; others become exactly the hash and the suffix, which is
   longer than maxlen for maxlen < 10 or ten and more channels. *)
Theorem C20_exact_length_partial hash b maxlen name p n k :
  bnumel b = Ok n -> digits n k -> (forall x, Z.max 8 (maxlen - 2) <= Z.of_nat (String.length (hash x))) ->
  path_sanitize hash b None = Ok name -> path_sanitize hash b (Some maxlen) = Ok p ->
  (Z.of_nat (String.length name) <= maxlen -> p = name) /\
  (maxlen < Z.of_nat (String.length name) ->
   Z.of_nat (String.length p) = Z.max 8 (maxlen - 2) + 1 + k /\
   (Z.of_nat (String.length p) <= maxlen <-> 10 <= maxlen /\ n < 10)).
Proof.
  intros Hn D Hh H0 H. unfold path_sanitize in *. rewrite Hn in H0, H. cbn [bind] in H0, H. injection H0 as <-. injection H as <-.
  unfold path_sanitize_v2. cbv zeta. set (name := if bad_ending _ then _ else _).
  destruct (Z.ltb_spec maxlen (Z.of_nat (String.length name))) as [L|L]; [|split; [reflexivity|lia]].
  split; [lia|]. intros _. assert (E : forall s, Z.of_nat (String.length (substring 0 (Z.to_nat (Z.max 8 (maxlen - 2))) (hash s) ++ String "_" (Z_str n))%string) = Z.max 8 (maxlen - 2) + 1 + k).
  { intros s. rewrite app_len. cbn [String.length]. rewrite substring_eq by (specialize (Hh s); lia). rewrite Nat2Z.inj_add, Nat2Z.inj_succ, (Z_str_length n k D). lia. }
  rewrite E. split; [reflexivity|]. destruct D as (K & U & V). split.
  - intros X. split; [lia|]. assert (k = 1) by lia. subst k. change (10 ^ 1) with 10 in U. lia.
  - intros (X & Y). assert (k = 1); [|lia]. destruct V as [V|V]; [exact V|]. destruct (Z.eq_dec k 1); [assumption|].
    assert (10 ^ 1 <= 10 ^ (k - 1)) by (apply Z.pow_le_mono_r; lia). change (10 ^ 1) with 10 in *. lia.
Qed.
Print Assumptions C20_exact_length_partial.

(* Whatever the hash: *)
Theorem C20_bound_partial hash b maxlen p n k :
  bnumel b = Ok n -> digits n k -> path_sanitize hash b (Some maxlen) = Ok p ->
  Z.of_nat (String.length p) <= Z.max maxlen (Z.max 8 (maxlen - 2) + 1 + k).
Proof.
  intros Hn D H. unfold path_sanitize in *. rewrite Hn in H. cbn [bind] in H. injection H as <-.
  unfold path_sanitize_v2. cbv zeta. set (name := if bad_ending _ then _ else _).
  destruct (Z.ltb_spec maxlen (Z.of_nat (String.length name))) as [L|L]; [|lia].
  rewrite app_len. cbn [String.length]. rewrite Nat2Z.inj_add, Nat2Z.inj_succ, (Z_str_length n k D).
  pose proof (substring_le (Z.to_nat (Z.max 8 (maxlen - 2))) (hash name)). lia.
Qed.
Print Assumptions C20_bound_partial.

(* sixteen characters allowed, twelve channels: seventeen *)
Example C20_exact_length_case :
  digits 12 2 /\ bnumel (BC (mkC "panchromatic.0:12"%string None)) = Ok 12 /\
  path_sanitize (fun _ => "abcdefghijklmnop"%string) (BC (mkC "panchromatic.0:12" None)) None = Ok "panchromatic.0..12"%string /\
  path_sanitize (fun _ => "abcdefghijklmnop"%string) (BC (mkC "panchromatic.0:12" None)) (Some 16) = Ok "abcdefghijklmn_12"%string.
Proof. unfold digits. repeat split; try reflexivity; try lia; try (vm_compute; congruence). Qed.
