(* Property theorems of the reader of ENVI headers. *)
From Verif Require Import Py PyProofs EnviModel EnviSpec EnviProofs.
Local Open Scope string_scope.

(** C114: the fields written in a header are read back: texts as texts, lists in
    braces as their items, however they are spread over lines and whatever comments
    stand between; names regardless of case; of repeated fields the last one. *)
Theorem C114_read_back : forall a x fs ls,
  white a -> contains newline a = false -> contains newline x = false ->
  Forall (fun l => contains newline l = false) ls -> written fs ls ->
  read_header (file_text ((a ++ "ENVI" ++ x) :: ls)) = Ok (dict_of (lower_keys fs)).
Proof. exact read_written. Qed.
Print Assumptions C114_read_back.

(* what that means for one field: its value is found under its name, unless the same
   name is written again further down *)
Theorem C114_field : forall a x f1 k v f2 ls,
  white a -> contains newline a = false -> contains newline x = false ->
  Forall (fun l => contains newline l = false) ls -> written (f1 ++ (k, v) :: f2) ls ->
  ~ In (lower k) (map (fun f => lower (fst f)) f2) ->
  exists h, read_header (file_text ((a ++ "ENVI" ++ x) :: ls)) = Ok h /\ dict_index (lower k) h = Ok v.
Proof.
  intros a x f1 k v f2 ls Ha Na Nx Hn Hw Hu. eexists. split; [exact (read_written _ _ _ _ Ha Na Nx Hn Hw)|].
  unfold lower_keys. rewrite map_app. cbn [map fst snd]. apply last_wins. rewrite map_map. exact Hu.
Qed.
Print Assumptions C114_field.

(* [lower], under which fields are found, is lower case, and [is_space] is white space *)
Theorem C114_alphabet : (forall s t, lower s = t <-> in_lower_case s t) /\ (forall c, is_space c = true <-> blank c).
Proof.
  assert (L : forall c, (exists n, String.get n capitals = Some c /\ String.get n smalls = Some (lower_char c)) \/
                        ((forall n, String.get n capitals <> Some c) /\ lower_char c = c)).
  { intros c. destruct (String.index 0 (String c "") capitals) as [n|] eqn:E.
    - left. exists n. destruct c as [[] [] [] [] [] [] [] []]; vm_compute in E; try discriminate; injection E as <-; split; reflexivity.
    - right. split.
      + intros n H. do 26 (destruct n as [|n]; [cbn in H; injection H as <-; vm_compute in E; discriminate|]). cbn in H. destruct n; discriminate.
      + destruct c as [[] [] [] [] [] [] [] []]; vm_compute in E |- *; try discriminate; reflexivity. }
  assert (U : forall n m c, String.get n capitals = Some c -> String.get m capitals = Some c -> n = m).
  { assert (B : forall n c, String.get n capitals = Some c -> n = (nat_of_ascii c - 65)%nat).
    { intros n c H. do 26 (destruct n as [|n]; [cbn in H; injection H as <-; reflexivity|]). cbn in H. destruct n; discriminate. }
    intros n m c Hn Hm. now rewrite (B _ _ Hn), (B _ _ Hm). }
  split.
  - intros s t. split.
    + intros <-. induction s as [|c s IH]; [constructor|]. cbn [lower].
      destruct (L c) as [(n & A & B) | (A & B)]; [exact (ilc_capital n c _ s _ A B IH)|]. rewrite B. now constructor.
    + induction 1 as [|n c d s t A B _ IH|c s t A _ IH]; [reflexivity|cbn [lower]; rewrite IH; f_equal..].
      * destruct (L c) as [(m & C & D) | (C & _)]; [|now elim (C n)]. rewrite (U _ _ _ A C) in B. congruence.
      * destruct (L c) as [(m & C & _) | (_ & D)]; [now elim (A m)|exact D].
  - intros c. destruct c as [[] [] [] [] [] [] [] []]; vm_compute; split; intros H; try reflexivity; try discriminate; try tauto;
      repeat (destruct H as [H | H]; [discriminate H|]); destruct H.
Qed.
Print Assumptions C114_alphabet.

Definition envi_lines : list string :=
  ["description = { two";
   "; a remark";
   "  rows }";
   "Samples  =  20";
   "";
   "wavelength = {0.4, 0.5,";
   ";  = }";
   "   0.6}";
   "interleave = bsq"].
Definition envi_fields : list (string * value) :=
  [("description", Text (String.append "two" (String newline "rows"))); ("Samples", Text "20");
   ("wavelength", Items ["0.4"; "0.5"; "0.6"]); ("interleave", Text "bsq")].

Example C114_case : written envi_fields envi_lines /\
  read_header (file_text ("ENVI" :: envi_lines)) = Ok (dict_of (lower_keys envi_fields)).
Proof.
  split; [|vm_compute; reflexivity].
  assert (T : forall s, strip s = s -> tidy s).
  { intros s H. split.
    - intros c r ->. destruct (is_space c) eqn:E; [|reflexivity]. unfold strip in H. cbn in H. rewrite E in H.
      exfalso. assert (L : forall s', (String.length (rstrip s') <= String.length s')%nat).
      { induction s' as [|b s' IH]; [auto|]. cbn. destruct (rstrip s'); [destruct (is_space b); cbn; lia|cbn in *; lia]. }
      assert (L' : forall s', (String.length (lstrip s') <= String.length s')%nat).
      { induction s' as [|b s' IH]; [auto|]. cbn. destruct (is_space b); cbn in *; lia. }
      apply (f_equal String.length) in H. specialize (L (lstrip r)). specialize (L' r). cbn in H. lia.
    - intros c r E. unfold strip in H. rewrite E in H. rewrite <- E in H at 1.
      eapply rstrip_tidy_end. rewrite E in H. exact H. }
  apply (w_description "description = { two" "description" "{ two" ["rows }"] ["; a remark"; "  rows }"]
    (String.append "two" (String newline "rows")) (String.append " two" (String newline "rows "))).
  - reflexivity.
  - exists "", " ", " ", "". cbn. repeat split; try reflexivity; try (apply T; reflexivity). intros [r E]. discriminate.
  - apply cont_comment; [eexists; reflexivity|]. apply (cont_piece "  " "rows }" ""); cbn; auto.
    + intros [r E]. discriminate.
    + constructor.
  - exists " ", " ". cbn. repeat split; try reflexivity; apply T; reflexivity.
  - reflexivity.
  - reflexivity.
  - reflexivity.
  - apply w_text.
    + exists "", "  ", "  ", "". cbn. repeat split; try reflexivity; try (apply T; reflexivity). intros [r E]. discriminate.
    + intros [r E]. discriminate.
    + apply w_skip; [right; reflexivity|].
      apply (w_list "wavelength = {0.4, 0.5," "wavelength" "{0.4, 0.5," ["0.6}"] [";  = }"; "   0.6}"]
        ["0.4"; "0.5"; "0.6"] ["0.4"; " 0.5"; String newline "0.6"]).
      * discriminate.
      * exists "", " ", " ", "". cbn. repeat split; try reflexivity; try (apply T; reflexivity). intros [r E]. discriminate.
      * apply cont_comment; [eexists; reflexivity|]. apply (cont_piece "   " "0.6}" ""); cbn; auto.
        -- intros [r E]. discriminate.
        -- constructor.
      * discriminate.
      * repeat constructor.
        -- exists "", "". cbn. repeat split; try (apply T; reflexivity).
        -- exists " ", "". cbn. repeat split; try (apply T; reflexivity).
        -- exists (String newline ""), "". cbn. repeat split; try (apply T; reflexivity).
      * repeat constructor.
      * reflexivity.
      * apply w_text.
        -- exists "", " ", " ", "". cbn. repeat split; try reflexivity; try (apply T; reflexivity). intros [r E]. discriminate.
        -- intros [r E]. discriminate.
        -- constructor.
Qed.

(* A list without items is read as a list of one empty item. *)
Theorem C114_empty_list : forall a b, white a -> white b -> contains newline a = false -> contains newline b = false ->
  read_header (file_text ["ENVI"; "bands = {" ++ a ++ "}" ++ b]) = Ok [("bands", Items [""])].
Proof.
  intros a b Ha Hb Na Nb. unfold read_header. rewrite lines_file.
  - cbn [map]. change (String.prefix "ENVI" (strip ("ENVI" ++ String newline ""))) with true. cbn iota.
    apply (empty_list a b Ha Hb).
  - constructor; [reflexivity|]. constructor; [|constructor]. now rewrite !contains_app, Na, Nb.
Qed.
Print Assumptions C114_empty_list.

(** C115: reading a header fails only for a file that does not start with ENVI or for
    a list that is opened and never closed. *)
Theorem C115_failures : forall text e, read_header text = Err e ->
  (e = OtherError /\ forall l ls, lines text = l :: ls -> String.prefix "ENVI" (strip l) = false) \/
  (e = IndexError /\ exists l0 l1 line l2, lines text = (l0 :: l1 ++ line :: l2)%list /\ opens line /\ Forall no_close l2).
Proof. exact read_fails. Qed.
Print Assumptions C115_failures.

(* Such a list after fields that are written properly does make it fail. *)
Theorem C115_unclosed : forall a x fs ls line l2,
  white a -> contains newline a = false -> contains newline x = false ->
  Forall (fun l => contains newline l = false) (ls ++ line :: l2) -> written fs ls ->
  opens line -> Forall no_close l2 ->
  read_header (file_text ((a ++ "ENVI" ++ x) :: ls ++ line :: l2)) = Err IndexError.
Proof. exact unclosed_fails. Qed.
Print Assumptions C115_unclosed.

(* a remark after the closing brace makes the list run on *)
Example C115_case : exists ls line l2, written [("samples", Text "20")] ls /\ opens line /\ Forall no_close l2 /\
  ls = ["samples = 20"] /\ line = "bands = {a, b} ; two bands" /\ l2 = ["lines = 30"; "interleave = bsq"] /\
  read_header (file_text ("ENVI" :: (ls ++ line :: l2)%list)) = Err IndexError.
Proof.
  exists ["samples = 20"], "bands = {a, b} ; two bands", ["lines = 30"; "interleave = bsq"].
  split; [|split; [|split; [|split; [reflexivity|split; [reflexivity|split; reflexivity]]]]].
  - apply w_text; [|intros [r E]; discriminate|constructor]. exists "", " ", " ", "". cbn. repeat split; try reflexivity.
    + intros c r E. injection E as <- _. reflexivity.
    + intros c r E. change "samples" with ("sample" ++ String "s" "") in E. apply snoc_inj in E as [_ <-]. reflexivity.
    + intros c r E. injection E as <- _. reflexivity.
    + intros c r E. change "20" with ("2" ++ String "0" "") in E. apply snoc_inj in E as [_ <-]. reflexivity.
    + intros [r E]. discriminate.
  - split; [intros [r E]; discriminate|]. eexists _, _. split; [reflexivity|]. split; [eexists; reflexivity|].
    rewrite <- last_is_spec. discriminate.
  - apply Forall_forall. intros l [<-|[<-|[]]]; right; rewrite <- last_is_spec; discriminate.
Qed.

(** C116: opening a header opens the file beside it with the same name and the
    interleave of the header as extension; other files are opened as they are. *)
Theorem C116_data_file : forall stem text h s,
  named false stem = true -> read_header text = Ok h -> dict_index "interleave" h = Ok (Text s) ->
  data_path (stem ++ ".hdr") text = Ok (stem ++ "." ++ s).
Proof.
  intros stem text h s Hn Hh Hs. unfold data_path. rewrite ends_with_app, Hh. cbn [bind]. rewrite Hs. cbn [bind].
  unfold with_ext. change ".hdr" with (String "." "hdr"). now rewrite root_app.
Qed.
Print Assumptions C116_data_file.

Theorem C116_other_file : forall path text,
  (forall stem, path <> stem ++ ".hdr") -> data_path path text = Ok path.
Proof.
  intros path text H. unfold data_path. destruct (ends_with ".hdr" path) eqn:E; [|reflexivity].
  apply ends_with_spec in E as (stem & ->). now destruct (H stem).
Qed.
Print Assumptions C116_other_file.

(* "upper and lower case do not matter in a header" is false of the value: an
   interleave in capitals gives an extension in capitals *)
Theorem C116_case_refuted : exists t1 t2, lower t1 = lower t2 /\ data_path "a/b.hdr" t1 = Ok "a/b.bsq" /\ data_path "a/b.hdr" t2 = Ok "a/b.BSQ".
Proof.
  exists (file_text ["ENVI"; "interleave = bsq"]), (file_text ["ENVI"; "interleave = BSQ"]).
  (* lower of the magic word is the same on both sides *)
  split; [vm_compute; reflexivity|]. split; vm_compute; reflexivity.
Qed.
Print Assumptions C116_case_refuted.

Example C116_case : named false "data/im.v2" = true /\
  data_path "data/im.v2.hdr" (file_text ("ENVI" :: envi_lines)) = Ok "data/im.v2.bsq" /\
  data_path "data/im.hdr.tif" "" = Ok "data/im.hdr.tif".
Proof. vm_compute. repeat split; reflexivity. Qed.
